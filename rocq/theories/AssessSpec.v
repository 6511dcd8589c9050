(** What a SEG-Y name is, and what it means to list some elements of a list. *)
From Coq Require Import ZArith List.
Import ListNotations.
Open Scope Z_scope.

(** A letter in either case, given as the small one. *)
Definition letter (small c : Z) : Prop := c = small \/ c = small - 32.
(** A name that ends in sgy or segy, in any mix of cases. *)
Definition segy_name (s : list Z) : Prop := exists pre a g y, letter 115 a /\ letter 103 g /\ letter 121 y /\
  (s = pre ++ [a; g; y] \/ exists e, letter 101 e /\ s = pre ++ [a; e; g; y]).
(** m has the elements of l with property P, in their order. *)
Inductive picks {A} (P : A -> Prop) : list A -> list A -> Prop :=
| picks_nil : picks P [] []
| picks_take x l m : P x -> picks P l m -> picks P (x :: l) (x :: m)
| picks_skip x l m : ~ P x -> picks P l m -> picks P (x :: l) m.
