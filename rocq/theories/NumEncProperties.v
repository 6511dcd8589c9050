(** Properties C05-C08: number encodings. *)
From Coq Require Import Reals Lra.
From Flocq Require Import Core.
From Verif Require Import Base NumEncModel NumEncSpec NumEncProofs.
Open Scope Z_scope.

(** C05: encoding stores the value modulo 2^(8n), most significant byte first ... *)
Theorem C05_msb_first :
  (forall v, Forall is_byte (to_big_endian 2 v) /\ length (to_big_endian 2 v) = 2%nat /\ be_value (to_big_endian 2 v) = v mod 65536) /\
  (forall v, Forall is_byte (to_big_endian 4 v) /\ length (to_big_endian 4 v) = 4%nat /\ be_value (to_big_endian 4 v) = v mod 4294967296).
Proof.
  split; intros v; [destruct (to_be_bytes 2 v)|destruct (to_be_bytes 4 v)]; split; auto; split; auto.
  - apply to_be2_value.
  - apply to_be4_value.
Qed.
Print Assumptions C05_msb_first.
(** ... decoding inverts encoding on every value of each type ... *)
Theorem C05_decode_encode :
  (forall v, in_s16 v -> exists b0 b1, to_big_endian 2 v = [b0; b1] /\ from_be_int16 b0 b1 = v) /\
  (forall v, in_s32 v -> exists b0 b1 b2 b3, to_big_endian 4 v = [b0; b1; b2; b3] /\ from_be_int32 b0 b1 b2 b3 = v) /\
  (forall v, 0 <= v < 4294967296 -> exists b0 b1 b2 b3, to_big_endian 4 v = [b0; b1; b2; b3] /\ from_be_uint32 b0 b1 b2 b3 = v) /\
  (forall v, 0 <= v < 4294967296 -> exists b0 b1 b2 b3, to_be_float v = [b0; b1; b2; b3] /\ from_be_float b0 b1 b2 b3 = v).
Proof.
  split; [|split; [|split]]; intros v Hv.
  - do 2 eexists. split; [apply to_be2|]. pose proof (dec16_be v) as D. rewrite to_be2 in D. cbn [dec16 nth] in D.
    unfold dec16 in D. cbn [nth] in D. rewrite D. apply s16_id; exact Hv.
  - do 4 eexists. split; [apply to_be4|]. pose proof (dec32_be v) as D. rewrite to_be4 in D. unfold dec32 in D. cbn [nth] in D.
    rewrite D. apply s32_id; exact Hv.
  - do 4 eexists. split; [apply to_be4|]. pose proof (decu32_be v) as D. rewrite to_be4 in D. unfold decu32 in D. cbn [nth] in D.
    rewrite D. apply Z.mod_small; exact Hv.
  - do 4 eexists. split; [apply to_be4|]. pose proof (decu32_be v) as D. rewrite to_be4 in D. unfold decu32 in D. cbn [nth] in D.
    unfold from_be_float. rewrite D. apply Z.mod_small; exact Hv.
Qed.
Print Assumptions C05_decode_encode.
(** ... and encoding inverts decoding on every byte string. *)
Theorem C05_encode_decode :
  (forall b0 b1, is_byte b0 -> is_byte b1 -> to_big_endian 2 (from_be_int16 b0 b1) = [b0; b1]) /\
  (forall b0 b1 b2 b3, is_byte b0 -> is_byte b1 -> is_byte b2 -> is_byte b3 ->
     to_big_endian 4 (from_be_int32 b0 b1 b2 b3) = [b0; b1; b2; b3] /\
     to_big_endian 4 (from_be_uint32 b0 b1 b2 b3) = [b0; b1; b2; b3] /\
     to_be_float (from_be_float b0 b1 b2 b3) = [b0; b1; b2; b3]).
Proof.
  split.
  - exact enc16_dec.
  - intros b0 b1 b2 b3 H0 H1 H2 H3. destruct (enc32_dec b0 b1 b2 b3 H0 H1 H2 H3) as (A & B). auto.
Qed.
Print Assumptions C05_encode_decode.
Example C05_nonvacuous : to_big_endian 4 (-2) = [255; 255; 255; 254] /\ from_be_int32 255 255 255 254 = -2
  /\ to_big_endian 2 258 = [1; 2] /\ in_s32 (-2) /\ is_byte 255.
Proof. unfold in_s32, is_byte. vm_compute. intuition congruence. Qed.

(** C06: every normalised IBM single within the range of normal IEEE singles is
    converted exactly. *)
Theorem C06_exact_in_normal_range :
  forall b0 b1 b2 b3, is_byte b0 -> is_byte b1 -> is_byte b2 -> is_byte b3 -> ibm_normalised b1 ->
  (bpow radix2 (-126) <= Rabs (ibm_value b0 b1 b2 b3) < bpow radix2 128)%R ->
  exists r, from_IBM_to_float true b0 b1 b2 b3 = Some r /\ float_is_finite r = true /\
            float_value r = ibm_value b0 b1 b2 b3.
Proof. exact ibm_exact. Qed.
Print Assumptions C06_exact_in_normal_range.
(** -118.625 is C2 76 A0 00 in IBM format, C2ED4000 in IEEE format. *)
Example C06_nonvacuous : from_IBM_to_float true 194 118 160 0 = Some 3270328320 /\ is_byte 194 /\ ibm_normalised 118
  /\ ibm_value 194 118 160 0 = (-118.625)%R /\ (bpow radix2 (-126) <= Rabs (ibm_value 194 118 160 0) < bpow radix2 128)%R.
Proof.
  assert (V : ibm_value 194 118 160 0 = (-118.625)%R).
  { unfold ibm_value. change (128 <=? 194) with true. cbv iota. change (ibm_fraction 118 160 0) with 7774208.
    change (4 * (194 mod 128 - 64) - 24) with (-16). change (bpow radix2 (-16)) with (/ IZR 65536)%R. lra. }
  split; [vm_compute; reflexivity|]. split; [unfold is_byte; lia|]. split; [unfold ibm_normalised; lia|].
  split; [exact V|]. rewrite V. rewrite Rabs_left by lra. split.
  - apply Rle_trans with (bpow radix2 0); [apply bpow_le; lia|]. change (bpow radix2 0) with 1%R. lra.
  - apply Rlt_le_trans with (bpow radix2 10); [|apply bpow_le; lia]. change (bpow radix2 10) with 1024%R. lra.
Qed.
(** C06 in full is false: an unnormalised fraction is not shifted up.  46 00 00 01
    is the number 1; it is converted to 1048577. *)
Theorem C06_unnormalised_refuted :
  exists b0 b1 b2 b3 r, is_byte b0 /\ is_byte b1 /\ is_byte b2 /\ is_byte b3 /\
  ibm_value b0 b1 b2 b3 = 1%R /\ from_IBM_to_float true b0 b1 b2 b3 = Some r /\ float_value r = 1048577%R.
Proof.
  exists 70, 0, 0, 1. eexists. do 4 (split; [unfold is_byte; lia|]).
  split.
  { unfold ibm_value. change (128 <=? 70) with false. cbv iota. change (ibm_fraction 0 0 1) with 1.
    change (4 * (70 mod 128 - 64) - 24) with 0. change (bpow radix2 0) with 1%R. lra. }
  split; [vm_compute; reflexivity|].
  destruct (b32_fields false 147 8) as (_ & F); [lia|lia|].
  change (0 * 2 ^ 31 + 147 * 2 ^ 23 + 8) with 1233125384 in F. rewrite F.
  change (147 =? 0) with false. cbv iota. change (2^23 + 8) with 8388616. change (147 - 150) with (-3).
  change (bpow radix2 (-3)) with (/ IZR 8)%R. cbn [sgn]. lra.
Qed.
Print Assumptions C06_unnormalised_refuted.

(** C07: overflow gives the infinity of the same sign ... *)
Theorem C07_overflow_to_infinity :
  forall b0 b1 b2 b3, is_byte b0 -> is_byte b1 -> is_byte b2 -> is_byte b3 -> ibm_normalised b1 ->
  (bpow radix2 128 <= Rabs (ibm_value b0 b1 b2 b3))%R ->
  from_IBM_to_float true b0 b1 b2 b3 = Some (if 128 <=? b0 then minus_inf else plus_inf).
Proof. exact ibm_overflow. Qed.
Print Assumptions C07_overflow_to_infinity.
(** ... values from 2^-157 up (so all of the subnormal range down to a quarter
    of the smallest subnormal 2^-149 and below) are rounded to nearest even ... *)
Theorem C07_subnormal_rounding_partial :
  forall b0 b1 b2 b3, is_byte b0 -> is_byte b1 -> is_byte b2 -> is_byte b3 -> ibm_normalised b1 ->
  (bpow radix2 (-157) <= Rabs (ibm_value b0 b1 b2 b3) < bpow radix2 128)%R ->
  exists r, from_IBM_to_float true b0 b1 b2 b3 = Some r /\ float_is_finite r = true /\
            float_value r = round_single (ibm_value b0 b1 b2 b3).
Proof. exact ibm_rounds. Qed.
Print Assumptions C07_subnormal_rounding_partial.
Example C07_nonvacuous :
  from_IBM_to_float true 127 255 255 255 = Some plus_inf /\ from_IBM_to_float true 255 255 255 255 = Some minus_inf /\
  from_IBM_to_float true 28 16 0 0 = Some 2 (* 2^-148, a subnormal *) /\
  (bpow radix2 128 <= Rabs (ibm_value 127 255 255 255))%R.
Proof.
  split; [vm_compute; reflexivity|]. split; [vm_compute; reflexivity|]. split; [vm_compute; reflexivity|].
  unfold ibm_value. change (128 <=? 127) with false. cbv iota. change (ibm_fraction 255 255 255) with 16777215.
  change (4 * (127 mod 128 - 64) - 24) with 228.
  rewrite Rabs_pos_eq.
  - apply Rle_trans with (bpow radix2 228); [apply bpow_le; lia|].
    assert (0 < bpow radix2 228)%R by apply bpow_gt_0. lra.
  - apply Rmult_le_pos; [lra|apply bpow_ge_0].
Qed.
(** ... but a zero fraction does not become zero: it becomes 0.5, for every
    sign and exponent. *)
Theorem C07_zero_becomes_half_refuted :
  forall b0, is_byte b0 ->
  ibm_value b0 0 0 0 = 0%R /\
  exists r, from_IBM_to_float true b0 0 0 0 = Some r /\ float_value r = 0.5%R.
Proof.
  intros b0 H0. split.
  - unfold ibm_value. change (ibm_fraction 0 0 0) with 0. ring.
  - eexists. split; [apply from_IBM_zero; try assumption; try (unfold is_byte; lia); reflexivity|].
    destruct (b32_fields false 126 0) as (_ & F); [lia|lia|].
    change (0 * 2 ^ 31 + 126 * 2 ^ 23 + 0) with 1056964608 in F. rewrite F.
    change (126 =? 0) with false. cbv iota. change (2^23 + 0) with 8388608. change (126 - 150) with (-24).
    change (bpow radix2 (-24)) with (/ IZR 16777216)%R. cbn [sgn]. lra.
Qed.
Print Assumptions C07_zero_becomes_half_refuted.

(** C08 is false: every normalised value below 2^-157 makes the code shift a
    32-bit value by 32 or more. *)
Theorem C08_every_pattern_refuted :
  (forall b0 b1 b2 b3, is_byte b0 -> is_byte b1 -> is_byte b2 -> is_byte b3 -> ibm_normalised b1 ->
    (Rabs (ibm_value b0 b1 b2 b3) < bpow radix2 (-157))%R -> from_IBM_to_float true b0 b1 b2 b3 = None) /\
  (exists b0 b1 b2 b3, is_byte b0 /\ is_byte b1 /\ is_byte b2 /\ is_byte b3 /\
     from_IBM_to_float true b0 b1 b2 b3 = None).
Proof.
  split; [exact ibm_tiny_undefined|].
  exists 0, 16, 0, 0. unfold is_byte. vm_compute. intuition congruence.
Qed.
Print Assumptions C08_every_pattern_refuted.
(** The byte order flag only reverses the bytes. *)
Theorem C08_byte_order_flag :
  forall b0 b1 b2 b3, from_IBM_to_float false b3 b2 b1 b0 = from_IBM_to_float true b0 b1 b2 b3.
Proof. exact little_endian_order. Qed.
Print Assumptions C08_byte_order_flag.
(** The public [to_float] loses a rounding carry into the normal range: the
    components of (1 - 2^-24) * 2^-126, which rounds to 2^-126, give zero. *)
Theorem C08_to_float_carry_refuted :
  exists c, 2 ^ 31 <= c_significand c < 2 ^ 32 /\ c_exponent c = -126 /\ to_float c = Some 0.
Proof. exists (mkComp 0 (-126) 4294967295). vm_compute. intuition congruence. Qed.
Print Assumptions C08_to_float_carry_refuted.
