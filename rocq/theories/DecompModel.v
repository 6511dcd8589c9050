(** Model of src/utils/decomposition/block_decomposition.cc and of the
    decompositions in util/sglobal.cc.  All quantities are size_t: Z in
    [0,2^64) with every operation followed by its wrap.  [None] is division by
    zero. *)
From Verif Require Import Base.

(** The pair {global_offset, local_size}: struct Contiguous_decomposition,
    include/ExSeisDat/utils/decomposition/block_decomposition.h *)
Record piece := mkPiece { global_offset : Z; local_size : Z }.

(** src/utils/decomposition/block_decomposition.cc:21-85, with the machine
    arithmetic of the code. *)
Definition block_decomposition (range_size num_ranks rank : Z) : option piece :=
  if num_ranks =? 0 then None else
  let chunk_size := range_size / num_ranks in          (* line 26 *)
  let remainder  := range_size mod num_ranks in        (* line 27 *)
  let goff := u64 (u64 (chunk_size * rank) + Z.min rank remainder) in (* 75 *)
  let extra := if rank <? remainder then 1 else 0 in   (* 81 *)
  let lsz := u64 (chunk_size + extra) in               (* 82 *)
  Some (mkPiece goff lsz).                             (* 84 *)

(** The pair {rank, local_index}: struct Decomposition_index_location. *)
Record location := mkLoc { loc_rank : Z; loc_index : Z }.

(** src/utils/decomposition/block_decomposition.cc:95-130 *)
Definition block_decomposition_location (range_size num_ranks global_index : Z)
  : option location :=
  if num_ranks =? 0 then None else
  let chunk_size := range_size / num_ranks in          (* 102 *)
  let remainder  := range_size mod num_ranks in        (* 103 *)
  let big := u64 (chunk_size + 1) in
  if global_index <? u64 (big * remainder) then        (* 105 *)
    if big =? 0 then None else
    let rank := global_index / big in                  (* 108 *)
    let local_index := u64 (global_index - u64 (big * rank)) in (* 109 *)
    Some (mkLoc rank local_index)
  else
    let offset_global_index := u64 (global_index - u64 (big * remainder)) in (* 117 *)
    if chunk_size =? 0 then None else                  (* division in 121 *)
    let offset_rank := offset_global_index / chunk_size in
    let rank := u64 (offset_rank + remainder) in       (* 124 *)
    let local_index := u64 (u64 (global_index - u64 (chunk_size * rank)) - remainder) in (* 126 *)
    Some (mkLoc rank local_index).

(** util/sglobal.cc:34-75. *)
Definition blockDecomp (sz bsz numRank rank off : Z) : option piece :=
  if bsz =? 0 then None else
  let rstart := u64 (bsz - off mod bsz) in             (* 38 *)
  let rend := u64 (off + sz) mod bsz in                (* 40 *)
  let bcnt := u64 (u64 (u64 (sz - rstart) - rend) / bsz + 2) in (* 42 *)
  match block_decomposition bcnt numRank rank with     (* 48 *)
  | None => None
  | Some newdec =>
    let goff := u64 (global_offset newdec * bsz) in    (* 50 *)
    let lsz := u64 (local_size newdec * bsz) in        (* 51 *)
    if lsz =? 0 then Some (mkPiece sz 0) else          (* 52-54 *)
    let '(goff, lsz) :=
      if rank =? 0
      then (goff, u64 (lsz - u64 (bsz - rstart)))      (* 60 *)
      else (u64 (goff - u64 (bsz - rstart)), lsz) in   (* 64 *)
    let lsz :=
      if negb (lsz =? 0) && (sz <? u64 (goff + lsz))   (* 68-70 *)
      then u64 (lsz - u64 (bsz - rend)) else lsz in    (* 71 *)
    Some (mkPiece goff lsz)
  end.

(** std::lround(double(a)/double(b)) for non-negative a < 2^53 and b: round half
    away from zero, exact because the quotient of two such integers is at
    distance more than one rounding error from a half unless it is a half.
    Used by util/sglobal.cc:13.  Simplification: exact rational division. *)
Definition lround_div (a b : Z) : Z := (2 * a + b) / (2 * b).

(** util/sglobal.cc:8-32: the sizes of all ranks ("lnt" gathered into nts), with
    the correction of rank 0 (lines 13-18). *)
Definition lob_total (numRank : Z) : Z := (numRank * (numRank + 1)) / 2.
Definition lob_raw (sz numRank rank : Z) : Z :=
  lround_div (u64 (sz * (rank + 1))) (lob_total numRank).
Definition lob_sizes (sz : Z) (numRank : nat) : list Z :=
  let raw := map (fun r => lob_raw sz (Z.of_nat numRank) (Z.of_nat r)) (seq 0 numRank) in
  let rem := u64 (sz - u64 (zsum raw)) in
  match raw with
  | [] => []
  | l0 :: rest => u64 (l0 + rem) :: rest
  end.
(** util/sglobal.cc:24-31: the offset of a rank; std::accumulate with an
    [unsigned int] start value sums modulo 2^32. *)
Definition lob_offset (sz : Z) (numRank rank : nat) : Z :=
  u32 (zsum (firstn rank (lob_sizes sz numRank))).
