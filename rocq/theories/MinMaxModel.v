(** Minimum and maximum searches.
    Models /repo/include/ExSeisDat/PIOL/operations/minmax.h and
    Set::getMinMax of /repo/src/Flow/Set.cc. *)
From Verif Require Import Base DoubleModel SortModel.
Open Scope Z_scope.

(** std::minmax_element: position and value of the first smallest and of the last
    largest element, [best] being at position [bi] and the rest starting at [i]. *)
Fixpoint scan_min {A} (lt : A -> A -> bool) (best : A) (bi i : nat) (l : list A) : nat * A :=
  match l with [] => (bi, best) | x :: l => if lt x best then scan_min lt x i (S i) l else scan_min lt best bi (S i) l end.
Fixpoint scan_max {A} (lt : A -> A -> bool) (best : A) (bi i : nat) (l : list A) : nat * A :=
  match l with [] => (bi, best) | x :: l => if lt x best then scan_max lt best bi (S i) l else scan_max lt x i (S i) l end.
(** [None] for an empty range: both iterators are its end. *)
Definition minmax_element {A} (lt : A -> A -> bool) (l : list A) : option ((nat * A) * (nat * A)) :=
  match l with [] => None | x :: r => Some (scan_min lt x 0 1 r, scan_max lt x 0 1 r) end.

(** minmax.h:77-87: a trace is the pair of the values of the two functions. *)
Definition trc : Type := (D * D)%type.
Definition less12 (a b : trc) : bool :=
  if dltb (fst a) (fst b) then true else if deqb (fst a) (fst b) && dltb (snd a) (snd b) then true else false.
(** minmax.h:89-100: what a rank contributes: two values and two trace numbers.
    A rank without traces looks at a default-constructed element, [junk]. *)
Definition local_minmax (junk : trc) (off : Z) (l : list trc) : list D * list Z :=
  match minmax_element less12 l with
  | None => ([fst junk; fst junk], [u64 off; u64 off])
  | Some ((i, a), (j, b)) => ([fst a; fst b], [u64 (off + Z.of_nat i); u64 (off + Z.of_nat j)])
  end.
(** std::vector::erase *)
Definition erase {A} (k : nat) (l : list A) : list A := firstn k l ++ skipn (S k) l.
(** minmax.h:107-114: ranks i-1 .. 0 *)
Fixpoint drop_empty {A} (sz : nat -> nat) (i : nat) (l : list A) : list A :=
  match i with O => l | S k => drop_empty sz k (if Nat.eqb (sz k) 0 then erase (2 * k) (erase (2 * k + 1) l) else l) end.
(** minmax.h:38-45 CoordElem: value and trace number *)
Definition elem : Type := (D * Z)%type.
Definition none_elem : elem := (d_of_Z 0, two64 - 1).
(** minmax.h:68-132, p ranks, [off r] and [dat r] the arguments of rank r. *)
Definition getCoordMinMax (junk : trc) (p : nat) (off : nat -> Z) (dat : nat -> list trc) : elem * elem :=
  let loc := fun r => local_minmax junk (off r) (dat r) in
  let sz := fun r => length (dat r) in
  let tminmax := drop_empty sz p (flat_map (fun r => fst (loc r)) (seq 0 p)) in
  let ttrace := drop_empty sz p (flat_map (fun r => snd (loc r)) (seq 0 p)) in
  match minmax_element dltb tminmax with
  | None => (none_elem, none_elem)
  | Some ((i, a), (j, b)) => if Nat.eqb i j then (none_elem, none_elem) else ((a, nth i ttrace 0), (b, nth j ttrace 0))
  end.
(** minmax.h:145-164 *)
Definition swap (t : trc) : trc := (snd t, fst t).
Definition getMinMax (junk : trc) (p : nat) (off : nat -> Z) (dat : nat -> list trc) : list elem :=
  let x := getCoordMinMax junk p off dat in
  let y := getCoordMinMax (swap junk) p off (fun r => map swap (dat r)) in
  [fst x; snd x; fst y; snd y].

(** Set.cc:521-524: the largest and the smallest positive normal double *)
Definition dbl_max : D := d_bin (2 ^ 53 - 1) 971.
Definition dbl_min : D := d_bin 1 (-1022).
(** Set.cc:546-554 *)
Definition upd_min (t m : elem) : elem :=
  if deqb (fst t) (fst m) then (fst m, Z.min (snd t) (snd m)) else if dltb (fst t) (fst m) then t else m.
(** Set.cc:556-565 *)
Definition upd_max (t m : elem) : elem :=
  if deqb (fst t) (fst m) then (fst m, Z.min (snd t) (snd m)) else if dltb (fst m) (fst t) then t else m.
(** Set.cc:517-570 for one of the two functions; a file is the lists of its traces'
    values on each rank, in the order of ilst; the offset is that of Comm::offset. *)
Definition off_of_file (dat : nat -> list trc) (r : nat) : Z := u64 (zsum (map (fun q => Z.of_nat (length (dat q))) (seq 0 r))).
Definition set_minmax (junk : trc) (p : nat) (files : list (nat -> list trc)) : elem * elem :=
  fold_left (fun m f => let t := getCoordMinMax junk p (off_of_file f) f in (upd_min (fst t) (fst m), upd_max (snd t) (snd m)))
    files ((dbl_max, two64 - 1), (dbl_min, two64 - 1)).
