(** What a history of calls should leave in the file: per trace the last samples
    written, per rank the number of traces. *)
From Verif Require Import Base DataIOModel DoubleModel ParamModel FileSpec FileModel.

(** The place of trace i among the traces of a call. *)
Fixpoint index_of (i : Z) (l : list Z) : option Z :=
  match l with [] => None | x :: r => if x =? i then Some 0 else option_map (Z.add 1) (index_of i r) end.
Definition find_pos (t : target) (i : Z) : option Z :=
  match t with
  | Range o n => if (o <=? i) && (i <? o + n) then Some (i - o) else None
  | Listed l => index_of i l
  end.
(** The samples (k -> bits) a call writes to trace i, if it writes samples there. *)
Definition written (ns : Z) (o : wop) (i : Z) : option (Z -> Z) :=
  match o with
  | WTrace _ t (Some trc) _ _ => option_map (fun j k => sample trc (j * ns + k)) (find_pos t i)
  | _ => None
  end.
(** The last of them in a history. *)
Definition last_samples (ns : Z) (h : history) (i : Z) : option (Z -> Z) :=
  fold_left (fun acc x => match written ns (snd x) i with Some s => Some s | None => acc end) h None.
(** The metadata (parameter set and index in it) a call writes to trace i. *)
Definition written_md (o : wop) (i : Z) : option (param * Z) :=
  match o with
  | WTrace _ t _ (Some p) skip => option_map (fun j => (p, j + skip)) (find_pos t i)
  | _ => None
  end.
Definition last_md (h : history) (i : Z) : option (param * Z) :=
  fold_left (fun acc x => match written_md (snd x) i with Some s => Some s | None => acc end) h None.

(** Targets inside a file of nt traces, without repetition. *)
Definition in_file (nt : Z) (t : target) : Prop :=
  match t with
  | Range o n => 0 <= o /\ 0 <= n /\ o + n <= nt
  | Listed l => Forall (fun x => 0 <= x < nt) l /\ NoDup l
  end.
(** A call made when the writer's ns is [wns] is in order: it uses the common ns,
    stays below nt and passes real bytes. *)
Definition op_ok (nt ns wns : Z) (o : wop) : Prop :=
  match o with
  | WTrace _ t trc _ _ => wns = ns /\ in_file nt t /\ (forall m, trc = Some m -> mem_bytes m)
  | _ => True
  end.
Definition history_ok (nt ns : Z) (h : history) : Prop :=
  forall h1 r o h2, h = h1 ++ (r, o) :: h2 -> op_ok nt ns (w_ns (rank_state h1 r)) o.

(** The number of traces a rank's calls ask for: the last announcement, or the
    end of the furthest write. *)
Definition announced (ops : list wop) : Z := fold_left (fun a o => match o with WNt n => n | _ => a end) ops 0.
Definition write_end (o : wop) : Z :=
  match o with
  | WTrace _ (Range o n) _ _ _ => o + n
  | WTrace _ (Listed l) _ _ _ => zmax (map (Z.add 1) l)
  | _ => 0
  end.
Definition asked (ops : list wop) : Z := Z.max (announced ops) (zmax (map write_end ops)).
Definition writes (o : wop) : Prop := match o with WTrace _ _ _ _ _ => True | _ => False end.
Definition is_nt (o : wop) : Prop := match o with WNt _ => True | _ => False end.
