(** Properties C01-C04 and C77: sharing index ranges between ranks. *)
From Verif Require Import Base DecompModel DecompSpec DecompProofs.

(** C01: for every size and every number of ranks the pieces are contiguous, in
    rank order, disjoint, and cover exactly 0..n-1. *)
Theorem C01_block_decomposition_partition :
  forall n p, in_u64 n -> 0 < p -> shares n p (block_decomposition n p).
Proof. exact block_decomposition_shares. Qed.
Print Assumptions C01_block_decomposition_partition.
Example C01_nonvacuous : in_u64 (two64 - 1) /\ 0 < 7 /\
  block_decomposition 10 4 1 = Some (mkPiece 3 3) /\ block_decomposition 10 4 2 = Some (mkPiece 6 2).
Proof. vm_compute. intuition congruence. Qed.

(** C02: sizes differ by at most one and do not increase with the rank. *)
Theorem C02_block_decomposition_balanced :
  forall n p r s pr ps, in_u64 n -> 0 < p -> 0 <= r <= s -> s < p ->
  block_decomposition n p r = Some pr -> block_decomposition n p s = Some ps ->
  local_size ps <= local_size pr <= local_size ps + 1.
Proof. exact block_decomposition_balanced. Qed.
Print Assumptions C02_block_decomposition_balanced.
Example C02_nonvacuous : exists pr ps, in_u64 10 /\ block_decomposition 10 4 0 = Some pr /\
  block_decomposition 10 4 3 = Some ps /\ local_size pr = 3 /\ local_size ps = 2.
Proof. do 2 eexists. vm_compute. intuition congruence. Qed.

(** C03: the location of a global index is defined (no division by zero) and is
    the owning rank together with the position in its piece ... *)
Theorem C03_location_finds_owner :
  forall n p gi, in_u64 n -> 0 < p < two64 -> 0 <= gi < n ->
  exists r li pc,
    block_decomposition_location n p gi = Some (mkLoc r li) /\
    0 <= r < p /\ block_decomposition n p r = Some pc /\
    0 <= li < local_size pc /\ global_offset pc + li = gi.
Proof. exact location_inverse. Qed.
Print Assumptions C03_location_finds_owner.
(** ... and conversely every element of a rank's piece is located at that rank. *)
Theorem C03_location_inverts_decomposition :
  forall n p r li pc, in_u64 n -> 0 < p < two64 -> 0 <= r < p ->
  block_decomposition n p r = Some pc -> 0 <= li < local_size pc ->
  block_decomposition_location n p (global_offset pc + li) = Some (mkLoc r li).
Proof. exact location_of_piece. Qed.
Print Assumptions C03_location_inverts_decomposition.
Example C03_nonvacuous : in_u64 10 /\ 0 < 4 < two64 /\
  block_decomposition_location 10 4 7 = Some (mkLoc 2 1) /\
  block_decomposition_location 3 8 2 = Some (mkLoc 2 0).
Proof. vm_compute. intuition congruence. Qed.

(** C04: the block-aligned decomposition of the copy utility is a partition with
    every start position block-aligned in the file, when the range holds its
    first and last partial block. *)
Theorem C04_blockDecomp_partition_aligned :
  forall sz bsz p off,
  0 < bsz -> 0 <= off -> 0 < sz -> off + sz < two64 -> sz + 2 * bsz < two64 -> 0 < p ->
  (bsz - off mod bsz) + (off + sz) mod bsz <= sz ->
  shares sz p (fun r => blockDecomp sz bsz p r off) /\
  (forall r pc, 0 <= r < p -> blockDecomp sz bsz p r off = Some pc ->
     global_offset pc = 0 \/ global_offset pc = sz \/ (off + global_offset pc) mod bsz = 0).
Proof. exact blockDecomp_shares. Qed.
Print Assumptions C04_blockDecomp_partition_aligned.
Example C04_nonvacuous : 0 < 512 /\ 0 <= 100 /\ 0 < 5000 /\ (512 - 100 mod 512) + (100 + 5000) mod 512 <= 5000
  /\ blockDecomp 5000 512 3 1 100 = Some (mkPiece 1948 1536).
Proof. vm_compute. intuition congruence. Qed.

(** C04 fails without the guard: a 1 MB file with 2 MiB blocks on 2 ranks gives
    rank 0 more than 2^63 bytes (the subtraction in the block count wraps). *)
Theorem C04_blockDecomp_refuted :
  exists sz bsz p off pc, 0 < bsz /\ 0 <= off /\ 0 < sz /\ off + sz < two64 /\ 0 < p /\
    blockDecomp sz bsz p 0 off = Some pc /\ sz < local_size pc /\
    ~ shares sz p (fun r => blockDecomp sz bsz p r off).
Proof.
  exists 1000000, 2097152, 2, 0. eexists. 
  split; [reflexivity|]. split; [discriminate|]. split; [reflexivity|]. split; [reflexivity|].
  split; [reflexivity|]. split; [vm_compute; reflexivity|]. split; [reflexivity|].
  intros (H & _). destruct (H 0 ltac:(lia)) as (pc & E & _ & _ & B).
  vm_compute in E. injection E as <-. vm_compute in B. apply B. reflexivity.
Qed.
Print Assumptions C04_blockDecomp_refuted.

(** C77: the deliberately uneven decomposition of filemake (-l) is a partition if
    rank 0 can absorb the rounding surplus and there are fewer than 2^32 traces. *)
Theorem C77_lobdecompose_partition_partial :
  forall sz (p : nat), (0 < p)%nat -> 0 <= sz < two32 -> sz * Z.of_nat p < two64 ->
  zsum (map (fun r => lob_raw sz (Z.of_nat p) (Z.of_nat r)) (seq 0 p)) <= sz + lob_raw sz (Z.of_nat p) 0 ->
  shares sz (Z.of_nat p)
    (fun r => Some (mkPiece (lob_offset sz p (Z.to_nat r)) (nth (Z.to_nat r) (lob_sizes sz p) 0))).
Proof. exact lob_shares. Qed.
Print Assumptions C77_lobdecompose_partition_partial.
Example C77_nonvacuous :
  zsum (map (fun r => lob_raw 100 4 (Z.of_nat r)) (seq 0 4)) <= 100 + lob_raw 100 4 0 /\
  lob_sizes 100 4 = [10; 20; 30; 40].
Proof. vm_compute. intuition congruence. Qed.

(** C77 is false in general: 7 traces on 7 ranks gives rank 0 a size of 2^64-1. *)
Theorem C77_lobdecompose_refuted :
  exists sz (p : nat), (0 < p)%nat /\ 0 <= sz < two32 /\ sz * Z.of_nat p < two64 /\
    nth 0 (lob_sizes sz p) 0 = two64 - 1.
Proof. exists 7, 7%nat. vm_compute. intuition (try congruence). repeat constructor. Qed.
Print Assumptions C77_lobdecompose_refuted.
