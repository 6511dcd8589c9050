(** What sorting should do, independently of the model. *)
From Coq Require Import Sorted Permutation Reals.
From Flocq Require Import Core IEEE754.BinarySingleNaN.
From Verif Require Import Base DoubleModel.
Open Scope Z_scope.

(** The requirements of std::sort on its order, for the elements satisfying [P]. *)
Definition strict_weak {A} (P : A -> Prop) (lt : A -> A -> bool) : Prop :=
  (forall x, P x -> lt x x = false) /\
  (forall x y z, P x -> P y -> P z -> lt x y = true -> lt y z = true -> lt x z = true) /\
  (forall x y z, P x -> P y -> P z -> lt x y = false -> lt y x = false -> lt y z = false -> lt z y = false -> lt x z = false).
Definition strict_total {A} (P : A -> Prop) (lt : A -> A -> bool) : Prop :=
  (forall x, P x -> lt x x = false) /\
  (forall x y z, P x -> P y -> P z -> lt x y = true -> lt y z = true -> lt x z = true) /\
  (forall x y, P x -> P y -> lt x y = false -> lt y x = false -> x = y).
(** Nothing is followed by something smaller. *)
Definition sorted {A} (lt : A -> A -> bool) (l : list A) : Prop := StronglySorted (fun a b => lt b a = false) l.
(** The contract of std::sort. *)
Definition std_sort (srt : forall A : Type, (A -> A -> bool) -> list A -> list A) : Prop :=
  forall A lt l, strict_weak (fun x => In x l) lt -> Permutation l (srt A lt l) /\ sorted lt (srt A lt l).
(** All elements of the p ranks, in rank order. *)
Definition all {A} (p : nat) (d : nat -> list A) : list A := flat_map d (seq 0 p).

(** Lexicographic order on lists of real numbers. *)
Fixpoint lex (a b : list R) : Prop :=
  match a, b with x :: a, y :: b => (x < y)%R \/ x = y /\ lex a b | _, _ => False end.
(** The value of a double that is not NaN, infinities beyond all finite numbers. *)
Definition ext (x : D) : R :=
  match x with
  | B754_infinity s => if s then (- bpow radix2 1024)%R else bpow radix2 1024
  | _ => B2R x
  end.
