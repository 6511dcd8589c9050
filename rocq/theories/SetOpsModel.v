(** Model of trace operations applied to the blocks of a set before they are written
    (src/Flow/Set.cc:140-169, 171-265, 665-713). *)
From Flocq Require Import IEEE754.Binary IEEE754.Bits.
From Verif Require Import Base DataIOModel RuleModel FloatModel FileModel SortModel SignalModel FlowModel SetFileModel.

(** The float a 32-bit word stands for and the word of a float (the representation of
    exseis::utils::Trace_value in memory).  Simplification: an operation whose result is
    not a number leaves one particular such word. *)
Definition dec_f (w : Z) : F := B2BSN 24 128 (b32_of_bits w).
Definition enc_f (x : F) : Z := bits_of_b32 (BSN2B 24 128 default_nan_pl32 x).

(** Set.cc:672-674, 704: the samples of trace j of a block, and their replacement. *)
Definition get_trace (ns : Z) (m : mem) (j : Z) : list F := map (fun k => dec_f (sample m (j * ns + k))) (zr ns).
Definition put_trace (ns : Z) (m : mem) (j : Z) (t : list F) : mem := fun q =>
  let x := q - 4 * (j * ns) in
  if (0 <=? x) && (x <? 4 * ns) then nth (Z.to_nat (x mod 4)) (le_bytes (enc_f (nth (Z.to_nat (x / 4)) t f0))) 0 else m q.

(** An operation on one trace of ns samples: exseis::utils::taper or exseis::utils::AGC
    with their other arguments. *)
Definition trace_op := list F -> outcome (list F).
(** Set.cc:669-680, 698-709: the loop over the n traces of a block.  [None]: undefined, or
    stopped by an assertion. *)
Definition in_place (f : trace_op) (ns n : Z) (m : mem) : option mem :=
  fold_left (fun om j => obind om (fun m => match f (get_trace ns m j) with Done t => Some (put_trace ns m j t) | _ => None end)) (zr n) (Some m).
(** Set.cc:237-238: calcFunc on the block. *)
Definition ops_block (fs : list trace_op) (ns n : Z) (m : mem) : option mem :=
  obind (calc KSingle (map (fun f => mkOp KSingle (fun om => obind om (in_place f ns n))) fs) (Some m)) (fun om => om).

(** Set.cc:237-241: the call that writes a block, after the operations.  The calls without
    traces are left as they are (their block has no trace to change). *)
Definition with_ops (fs : list trace_op) (ns : Z) (o : wop) : option wop :=
  match o with
  | WTrace sizes t (Some m) prm skip => obind (ops_block fs ns (tcount t) m) (fun m => Some (WTrace sizes t (Some m) prm skip))
  | _ => Some o
  end.
(** Set.cc:174-265: all the calls of rank r of p for a list of operations.  The
    operations work on one block at a time, so doing them after all the blocks have been
    read makes no difference. *)
Definition set_ops_calls (fs : list trace_op) (maxSize : Z) (sizes : nat -> nat -> list Z) (rl : rule) (srt : sorter) (outmsg : list Z) (g : list (reader * file)) (fds : nat -> list fdesc) (p r : nat) : option (list wop) :=
  match g with
  | [] => Some []
  | (rd, _) :: _ => obind (set_calls maxSize sizes rl srt outmsg g fds p r) (omap (with_ops fs (r_ns rd)))
  end.
(** Set.cc:661-682 and 688-713. *)
Definition op_taper (dbg : bool) (fn : F -> F -> F) (l r : Z) : trace_op := fun s => taper dbg fn s l r.
Definition op_AGC (dbg : bool) (g : gain_function) (w : Z) (target : F) : trace_op := fun s => AGC dbg g s w target.
