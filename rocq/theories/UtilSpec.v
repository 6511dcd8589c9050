(** What model lookup, random file making and replication should do. *)
From Coq Require Import Sorted Permutation.
From Verif Require Import Base DecompModel DecompSpec UtilModel.
Import ListNotations.
Open Scope Z_scope.

(** A regular grid of ni inlines and nx crosslines, crosslines running fastest. *)
Definition grid_il (i0 di nx k : Z) : Z := i0 + di * (k / nx).
Definition grid_xl (x0 dx nx k : Z) : Z := x0 + dx * (k mod nx).
(** Where byte x of the replicated file comes from: the header, then the payload over
    and over. *)
Definition origin (fsz x : Z) : Z := if x <? hosz then x else hosz + (x - hosz) mod (fsz - hosz).
Definition total (fsz rep : Z) : Z := hosz + (fsz - hosz) * rep.
(** The writes of all p ranks together give every byte of the replicated file, and
    nothing else, whatever their order. *)
Definition replicates (fsz rep p : Z) (writes : Z -> option (list copy)) : Prop :=
  (forall r, 0 <= r < p -> exists l, writes r = Some l /\
     Forall (fun c => 0 <= len c /\ forall b, 0 <= b < len c -> 0 <= dst c + b < total fsz rep /\ src c + b = origin fsz (dst c + b)) l) /\
  (forall x, 0 <= x < total fsz rep -> exists r l c, 0 <= r < p /\ writes r = Some l /\ In c l /\ dst c <= x < dst c + len c).
