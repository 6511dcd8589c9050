(** src/ReadSEGYModel.cc, util/filemake.cc (writeRandom) and util/makerep.cc. *)
From Verif Require Import Base DecompModel DataIOModel.
Import ListNotations.
Open Scope Z_scope.

(** ---- Model files ---- *)
(** include/ExSeisDat/PIOL/Model3dInterface.hh:26-55: il and xl, CoordinateParameters. *)
Record grid := mkGrid { il_start : Z; il_count : Z; il_increment : Z; xl_start : Z; xl_count : Z; xl_increment : Z }.
(** src/ReadSEGYModel.cc:21-58, for a file of nt traces with inlines il and crosslines
    xl.  [None]: trace 1 of a file without one is read, or a division by zero.  The
    header values are 32 bits wide, so the long long arithmetic cannot overflow; C
    division truncates. *)
Definition model_open (nt : Z) (il xl : Z -> Z) : option grid :=
  if nt <? 2 then None else                                                   (* 27 *)
  let inc := il 1 - il 0 in                                                   (* 36-38 *)
  let cnt := if inc =? 0 then 0 else Z.quot (il (nt - 1) - il 0) inc in        (* 39-44 *)
  let xcnt := nt / (if cnt =? 0 then 1 else u64 cnt) in                       (* 45-46 *)
  if xcnt =? 0 then None else
  let xinc := Z.quot (xl (nt - 1) - xl 0) xcnt in                             (* 47-50 *)
  Some (mkGrid (il 0) cnt (if inc =? 0 then 1 else inc) (xl 0) xcnt (if xinc =? 0 then 1 else xinc)).
(** src/ReadSEGYModel.cc:74-75, 95-96 *)
Definition model_offset (g : grid) (i x : Z) : Z :=
  u64 (Z.quot (i - il_start g) (il_increment g) * xl_count g + Z.quot (x - xl_start g) (xl_increment g)).

(** ---- filemake -r ---- *)
(** util/filemake.cc:82-95: one round over the ranks j, j+1, ...; rest holds num[j..].
    Returns num[j..], offcount and the offset taken by [rank] in this round. *)
Fixpoint fm_round (rank j : nat) (rest : list nat) (off : nat) (mine : list nat) : list nat * nat * list nat :=
  match rest with
  | [] => ([], off, mine)
  | n :: rest =>
    if Nat.eqb j rank then
      let '(r, off', m) := fm_round rank (S j) rest (S off) (mine ++ [off]) in (pred n :: r, off', m)
    else if Nat.eqb n 0 then
      let '(r, off', m) := fm_round rank (S j) rest off mine in (n :: r, off', m)
    else
      let '(r, off', m) := fm_round rank (S j) rest (S off) mine in (pred n :: r, off', m)
  end.
(** util/filemake.cc:81: while (num[rank] > 0 && offcount < nt); num[rank] falls in
    every round, so its first value bounds their number. *)
Fixpoint fm_rounds (fuel : nat) (rank nt : nat) (num : list nat) (off : nat) (mine : list nat) : list nat :=
  match fuel with
  | O => mine
  | S fuel =>
    if (0 <? nth rank num 0%nat)%nat && (off <? nt)%nat
    then let '(num', off', m) := fm_round rank 0 num off mine in fm_rounds fuel rank nt num' off' m
    else mine
  end.
(** util/filemake.cc:71-96: the offsets of a rank, given every rank's number of traces. *)
Definition random_offsets (rank nt : nat) (num : list nat) : list nat := fm_rounds (S (nth rank num 0%nat)) rank nt num 0 [].

(** ---- makerep ---- *)
(** A write: output position, position of its first byte in the input, length. *)
Record copy := mkCopy { dst : Z; src : Z; len : Z }.
Definition hosz : Z := 3600.
Definition rep_bsz : Z := 2097152.
(** util/makerep.cc:21-46 *)
Definition smallCopy (rank fsz rep : Z) : list copy :=
  if rank =? 0
  then mkCopy 0 0 fsz :: map (fun k => mkCopy (u64 (hosz + u64 ((fsz - hosz) * (k + 1)))) hosz (fsz - hosz)) (zr (rep - 1))
  else [].
(** util/makerep.cc:183-184, 226-227 *)
Definition rep_step (p : Z) : Z := p * (512 * rep_bsz).
(** The chunks i = 0, step, 2 step, ... below fsz (the for loops, 186 and 229). *)
Definition chunks (fsz step : Z) : list Z := map (fun k => k * step) (zr ((fsz + step - 1) / step)).
(** util/makerep.cc:217-255, one chunk of one rank.  [None]: the header is cut from a
    buffer shorter than it. *)
Definition naive_chunk (dec : Z -> Z -> Z -> option piece) (fsz step rank rep i : Z) : option (list copy) :=
  let rblock := if i + step <? fsz then step else fsz - i in
  obind (dec rblock rank i) (fun d =>
  let goff := global_offset d in let lsz := local_size d in
  if (i =? 0) && (goff =? 0) && (lsz <? hosz) then None else
  let '(s, g, l) :=
    if i =? 0 then if goff =? 0 then (hosz, 0, lsz - hosz) else (goff, u64 (goff - hosz), lsz)
    else (i + goff, goff, lsz) in
  Some (mkCopy (i + goff) (i + goff) lsz ::
        map (fun k => mkCopy (u64 (hosz + u64 ((fsz - hosz) * (k + 1)) + i + g)) s l) (zr (rep - 1)))).
Fixpoint all_chunks (f : Z -> option (list copy)) (is : list Z) : option (list copy) :=
  match is with [] => Some [] | i :: is => obind (f i) (fun a => obind (all_chunks f is) (fun b => Some (a ++ b))) end.
(** [blk]: the template parameter Block (naive1 true, naive2 false). *)
Definition naive_dec (blk : bool) (p rblock rank i : Z) : option piece :=
  if blk then block_decomposition rblock p rank else blockDecomp rblock rep_bsz p rank i.
Definition makeSEGYCopyNaive (blk : bool) (p rank fsz rep : Z) : option (list copy) :=
  all_chunks (naive_chunk (naive_dec blk p) fsz (rep_step p) rank rep) (chunks fsz (rep_step p)).

(** util/makerep.cc:48-133 distribToDistrib on all ranks at once: rank r holds v r of
    the piece o r and must end with the piece n r.  Rank r sends its first bytes to
    rank r - 1 or its last bytes to rank r + 1; a message longer than the data held
    (it would overlap a receive buffer), to a rank that does not exist or of another
    length than expected is [None]. *)
Definition pend (d : piece) : Z := global_offset d + local_size d.
Section Exchange.
Context {A : Type}.
Variables (p : nat) (o n : nat -> piece) (v : nat -> list A).
(** What rank r sends down (tag 1) and up (tag 0). *)
Definition sent_down (r : nat) : option (list A) :=
  let k := global_offset (n r) - global_offset (o r) in
  if k <=? 0 then Some [] else if (r =? 0)%nat || (Z.of_nat (length (v r)) <? k) then None else Some (firstn (Z.to_nat k) (v r)).
Definition sent_up (r : nat) : option (list A) :=
  let k := pend (o r) - pend (n r) in
  if k <=? 0 then Some [] else if (S r =? p)%nat || (Z.of_nat (length (v r)) <? k) then None else Some (skipn (length (v r) - Z.to_nat k) (v r)).
(** What rank r gets from below and from above. *)
Definition got_below (r : nat) : option (list A) :=
  let k := global_offset (o r) - global_offset (n r) in
  if k <=? 0 then Some [] else match r with O => None | S q => obind (sent_up q) (fun m => if Z.of_nat (length m) =? k then Some m else None) end.
Definition got_above (r : nat) : option (list A) :=
  let k := pend (n r) - pend (o r) in
  if k <=? 0 then Some [] else if (S r =? p)%nat then None else obind (sent_down (S r)) (fun m => if Z.of_nat (length m) =? k then Some m else None).
Definition exchanged (r : nat) : option (list A) :=
  obind (sent_down r) (fun _ => obind (sent_up r) (fun _ =>
  obind (got_below r) (fun a => obind (got_above r) (fun b =>
  let w := a ++ v r ++ b in
  let w := skipn (Z.to_nat (global_offset (n r) - global_offset (o r))) w in          (* 126-129 *)
  if Z.of_nat (length w) <? local_size (n r) then None else Some (firstn (Z.to_nat (local_size (n r))) w))))).
End Exchange.
