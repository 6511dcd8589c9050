(** Properties C13-C15: the SEG-Y file layout. *)
From Verif Require Import Base LayoutModel LayoutProofs.

(** C13: every byte of a file of nt traces lies in exactly one of the file
    header, the metadata of a trace, the samples of a trace ... *)
Theorem C13_regions_tile_the_file :
  forall nt ns x, fits nt ns -> 0 <= x < getFileSz nt ns ->
  exists! r, region_of nt r /\ in_region ns r x.
Proof. exact regions_tile. Qed.
Print Assumptions C13_regions_tile_the_file.
(** ... and none of these reaches outside the file. *)
Theorem C13_regions_inside_the_file :
  forall nt ns r, fits nt ns -> region_of nt r ->
  0 <= fst (region_range ns r) /\ fst (region_range ns r) + snd (region_range ns r) <= getFileSz nt ns.
Proof. exact regions_inside. Qed.
Print Assumptions C13_regions_inside_the_file.
Example C13_nonvacuous : fits 1000000 32767 /\ region_of 1000000 (Samples 999999) /\
  getFileSz 10 100 = 3600 + 10 * 640 /\ in_region 100 (Samples 3) (3600 + 3 * 640 + 240).
Proof. unfold fits, region_of, in_region. vm_compute. intuition congruence. Qed.

(** C14: the number of traces is recovered from the size, even with a partial
    trace at the end. *)
Theorem C14_nt_recovered_from_size :
  forall nt ns extra, fits nt ns -> 0 <= extra < getDOSz ns -> getFileSz nt ns + extra < two64 ->
  getNt (getFileSz nt ns + extra) ns = Some nt.
Proof. exact getNt_of_size. Qed.
Print Assumptions C14_nt_recovered_from_size.
Example C14_nonvacuous : fits 7 50 /\ getFileSz 7 50 + 439 < two64 /\ getNt (getFileSz 7 50 + 439) 50 = Some 7
  /\ getNt (getFileSz 7 50 + 440) 50 = Some 8.
Proof. unfold fits. vm_compute. intuition congruence. Qed.

(** C15: for a header count below 32768 opening is defined, ns is the number
    stored and nt is the number of complete traces. *)
Theorem C15_open_small_ns_partial :
  forall fsz b0 b1, 0 <= b0 < 128 -> 0 <= b1 < 256 -> 3600 <= fsz < two64 ->
  exists nt, read_nt fsz b0 b1 = Some nt /\ fits nt (256 * b0 + b1) /\
     getFileSz nt (256 * b0 + b1) <= fsz < getFileSz nt (256 * b0 + b1) + getDOSz (256 * b0 + b1).
Proof. exact open_defined. Qed.
Print Assumptions C15_open_small_ns_partial.
Example C15_nonvacuous : read_nt (3600 + 5 * 2240) 1 244 = Some 5 /\ 256 * 1 + 244 = 500.
Proof. vm_compute. intuition congruence. Qed.

(** C15 in full is false: header bytes FF C4 (an unsigned 65476) divide by zero,
    and header bytes 80 00 (an unsigned 32768) are not read as 32768 samples. *)
Theorem C15_open_any_file_refuted :
  (exists fsz b0 b1, is_byte b0 /\ is_byte b1 /\ 3600 <= fsz < two64 /\ read_nt fsz b0 b1 = None) /\
  (exists b0 b1, is_byte b0 /\ is_byte b1 /\ read_ns b0 b1 <> 256 * b0 + b1).
Proof.
  split.
  - exists 100000, 255, 196. unfold is_byte. vm_compute. intuition congruence.
  - exists 128, 0. unfold is_byte. vm_compute. intuition congruence.
Qed.
Print Assumptions C15_open_any_file_refuted.
