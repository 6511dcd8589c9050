(** What "the ranks share the indices 0..n-1" means, independent of any formula. *)
From Verif Require Import Base DecompModel.

(** [f r] is the piece handed to rank [r]; [p] ranks share [0,n).
    Every rank gets a defined piece of non-negative size inside [0,n);
    every index belongs to the piece of one and only one rank;
    pieces of lower ranks lie wholly below pieces of higher ranks. *)
Definition in_piece (pc : piece) (i : Z) : Prop :=
  global_offset pc <= i < global_offset pc + local_size pc.

Definition shares (n p : Z) (f : Z -> option piece) : Prop :=
  (forall r, 0 <= r < p -> exists pc, f r = Some pc /\
      0 <= local_size pc /\ 0 <= global_offset pc /\ global_offset pc + local_size pc <= n) /\
  (forall i, 0 <= i < n -> exists! r, 0 <= r < p /\ exists pc, f r = Some pc /\ in_piece pc i) /\
  (forall r s i j pc pd, 0 <= r < s -> s < p -> f r = Some pc -> f s = Some pd ->
      in_piece pc i -> in_piece pd j -> i < j) /\
  (* consecutive pieces are adjacent; the first starts at 0, the last ends at n *)
  (forall pc, f 0 = Some pc -> global_offset pc = 0) /\
  (forall r pc pd, 0 <= r -> r + 1 < p -> f r = Some pc -> f (r + 1) = Some pd ->
      global_offset pd = global_offset pc + local_size pc) /\
  (forall pc, f (p - 1) = Some pc -> global_offset pc + local_size pc = n).
