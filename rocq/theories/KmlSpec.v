(** What a decimal text with a point denotes. *)
From Verif Require Import Base.
Import ListNotations.
Open Scope Z_scope.

Definition is_digit (c : Z) : Prop := 48 <= c <= 57.
(** The number a row of digits stands for. *)
Definition num_of (ds : list Z) : Z := fold_left (fun a c => 10 * a + (c - 48)) ds 0.
(** The text s denotes m / 10^k: digits, a point (46), k digits; maybe a minus sign (45). *)
Definition denotes_pos (s : list Z) (m : Z) (k : nat) : Prop :=
  exists a b, s = a ++ 46 :: b /\ a <> [] /\ b <> [] /\ Forall is_digit a /\ Forall is_digit b /\ k = length b /\ m = num_of (a ++ b).
Definition denotes (s : list Z) (m : Z) (k : nat) : Prop :=
  denotes_pos s m k \/ exists t, s = 45 :: t /\ denotes_pos t (- m) k.
