(** What tapers, gain control and filters should do. *)
From Coq Require Import Reals.
From Flocq Require Import Core IEEE754.BinarySingleNaN.
From Verif Require Import Base DataIOModel FloatModel.
Import ListNotations.
Open Scope Z_scope.

(** The list with f applied to every element and its position. *)
Fixpoint imap {A B} (f : Z -> A -> B) (k : Z) (s : list A) : list B := match s with [] => [] | x :: s => f k x :: imap f (k + 1) s end.
(** The samples of s at most h away from position j. *)
Definition around {A} (h j : Z) (s : list A) : list A :=
  map snd (filter (fun ix => Z.abs (fst ix - j) <=? h) (combine (zr (Z.of_nat (length s))) s)).
(** Sample i of a live trace of n samples, tapered with l samples on the left and r on
    the right: the ramps rise over 1..l and fall over r..1. *)
Definition tapered (fn : F -> F -> F) (n l r i : Z) (v : F) : F :=
  let v := if i <? l then fmul v (fn (f_of_Z (i + 1)) (f_of_Z l)) else v in
  if n - r <=? i then fmul v (fn (f_of_Z (n - i)) (f_of_Z r)) else v.
(** The float compares equal to 0. *)
Definition muted (x : F) : Prop := feqb x f0 = true.
Definition live (x : F) : Prop := feqb x f0 = false.
(** a is a median of the values w: at most half are smaller, at most half greater. *)
Definition is_median (a : F) (w : list F) : Prop :=
  In a w /\ (2 * length (filter (fun x => fltb x a) w) <= length w)%nat /\ (2 * length (filter (fun x => fltb a x) w) <= length w)%nat.
(** The real-valued mean square of the non-zero ones of some integers. *)
Definition sum_sq (v : list Z) : Z := zsum (map (fun x => x * x) v).
Definition count_nz (v : list Z) : Z := Z.of_nat (length (filter (fun x => negb (x =? 0)) v)).
