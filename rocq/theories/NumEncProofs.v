From Coq Require Import Reals Lra.
From Flocq Require Import Core IEEE754.BinarySingleNaN IEEE754.Bits.
From Verif Require Import Base DecompProofs NumEncModel NumEncSpec.
Open Scope Z_scope.

(** ---- bit facts ---- *)
Lemma land_disjoint a b k : 0 <= k -> 0 <= b < 2 ^ k -> Z.land (a * 2 ^ k) b = 0.
Proof.
  intros Hk Hb. apply Z.bits_inj'. intros n Hn. rewrite Z.land_spec, Z.bits_0.
  destruct (Z_lt_ge_dec n k).
  - rewrite Z.mul_pow2_bits_low by lia. reflexivity.
  - destruct (Z.eq_dec b 0) as [->|]; [rewrite Z.bits_0; apply andb_false_r|].
    rewrite (Z.bits_above_log2 b n); [apply andb_false_r|lia|].
    assert (Z.log2 b < k) by (apply Z.log2_lt_pow2; lia). lia.
Qed.
Lemma lor_add a b k : 0 <= k -> 0 <= b < 2 ^ k -> Z.lor (a * 2 ^ k) b = a * 2 ^ k + b.
Proof.
  intros Hk Hb. pose proof (land_disjoint a b k Hk Hb) as E.
  rewrite <- Z.lxor_lor by exact E. rewrite <- Z.add_nocarry_lxor by exact E. reflexivity.
Qed.
Lemma land_mask a k : 0 <= k -> Z.land a (2 ^ k - 1) = a mod 2 ^ k.
Proof. intros. replace (2^k - 1) with (Z.ones k) by (rewrite Z.ones_equiv; lia). apply Z.land_ones; lia. Qed.

Lemma or4_value b0 b1 b2 b3 : is_byte b0 -> is_byte b1 -> is_byte b2 -> is_byte b3 ->
  or4 b0 b1 b2 b3 = be_value [b0; b1; b2; b3].
Proof.
  unfold is_byte, or4. intros. rewrite !Z.shiftl_mul_pow2 by lia.
  rewrite (lor_add b0 (b1 * 2^16) 24) by (rewrite ?Z.pow_pos_fold; change (2^16) with 65536; change (2^24) with 16777216; lia).
  replace (b0 * 2^24 + b1 * 2^16) with ((b0 * 256 + b1) * 2^16) by (change (2^16) with 65536; change (2^24) with 16777216; lia).
  rewrite lor_add by (change (2^16) with 65536; change (2^8) with 256; lia).
  replace ((b0 * 256 + b1) * 2^16 + b2 * 2^8) with (((b0 * 256 + b1) * 256 + b2) * 2^8) by (change (2^16) with 65536; change (2^8) with 256; lia).
  rewrite lor_add by (change (2^8) with 256; lia).
  unfold be_value. cbn [fold_left]. change (2^8) with 256. lia.
Qed.
Lemma be4_range b0 b1 b2 b3 : is_byte b0 -> is_byte b1 -> is_byte b2 -> is_byte b3 ->
  0 <= be_value [b0; b1; b2; b3] < two32.
Proof. unfold is_byte, be_value, two32. cbn [fold_left]. lia. Qed.

(** ---- C05 ---- *)
Lemma to_be2 v : to_big_endian 2 v = [v / 256 mod 256; v mod 256].
Proof.
  unfold to_big_endian. cbn [seq map]. change 255 with (2^8-1). rewrite !land_mask by lia.
  rewrite !Z.shiftr_div_pow2 by lia. cbn - [Z.modulo Z.div]. rewrite Z.div_1_r. reflexivity.
Qed.
Lemma to_be4 v : to_big_endian 4 v = [v / 16777216 mod 256; v / 65536 mod 256; v / 256 mod 256; v mod 256].
Proof.
  unfold to_big_endian. cbn [seq map]. change 255 with (2^8-1). rewrite !land_mask by lia.
  rewrite !Z.shiftr_div_pow2 by lia. cbn - [Z.modulo Z.div]. rewrite Z.div_1_r. reflexivity.
Qed.
Lemma to_be_bytes n v : Forall is_byte (to_big_endian n v) /\ length (to_big_endian n v) = n.
Proof.
  unfold to_big_endian. split.
  - apply Forall_forall. intros x Hx. apply in_map_iff in Hx. destruct Hx as (i & <- & _).
    change 255 with (2^8-1). rewrite land_mask by lia. unfold is_byte.
    pose proof (Z.mod_pos_bound (Z.shiftr v (8 * (Z.of_nat n - Z.of_nat i - 1))) (2^8) ltac:(lia)).
    change (2^8) with 256 in *. lia.
  - rewrite map_length, seq_length. reflexivity.
Qed.
Lemma to_be2_value v : be_value (to_big_endian 2 v) = v mod 65536.
Proof.
  rewrite to_be2. unfold be_value. cbn [fold_left].
  replace 65536 with (256 * 256) by reflexivity. rewrite Z.rem_mul_r by lia. lia.
Qed.
Lemma to_be4_value v : be_value (to_big_endian 4 v) = v mod two32.
Proof.
  rewrite to_be4. unfold be_value, two32. cbn [fold_left].
  assert (E2 : v / 65536 = v / 256 / 256) by (rewrite Z.div_div by lia; reflexivity).
  assert (E3 : v / 16777216 = v / 256 / 256 / 256) by (rewrite !Z.div_div by lia; reflexivity).
  assert (E4 : v / 4294967296 = v / 256 / 256 / 256 / 256) by (rewrite !Z.div_div by lia; reflexivity).
  rewrite (Z.mod_eq v 4294967296) by lia. rewrite E2, E3, E4.
  pose proof (Z.mod_eq v 256 ltac:(lia)). pose proof (Z.mod_eq (v/256) 256 ltac:(lia)).
  pose proof (Z.mod_eq (v/256/256) 256 ltac:(lia)). pose proof (Z.mod_eq (v/256/256/256) 256 ltac:(lia)). lia.
Qed.
Lemma from16_value b0 b1 : is_byte b0 -> is_byte b1 -> from_be_int16 b0 b1 = s16 (be_value [b0; b1]).
Proof.
  unfold is_byte, from_be_int16. intros. rewrite Z.shiftl_mul_pow2 by lia.
  rewrite lor_add by (change (2^8) with 256; lia). f_equal. unfold be_value. cbn [fold_left]. change (2^8) with 256. lia.
Qed.
Lemma s16_mod v : s16 (v mod 65536) = s16 v.
Proof. unfold s16. rewrite Zplus_mod_idemp_l. reflexivity. Qed.
Lemma s32_mod v : s32 (v mod two32) = s32 v.
Proof. unfold s32, two32. rewrite Zplus_mod_idemp_l. reflexivity. Qed.
Lemma s16_id v : in_s16 v -> s16 v = v.
Proof. unfold in_s16, s16. intros. rewrite Z.mod_small by lia. lia. Qed.
Lemma s32_id v : in_s32 v -> s32 v = v.
Proof. unfold in_s32, s32, two32. intros. rewrite Z.mod_small; lia. Qed.
Lemma s16_range v : in_s16 (s16 v).
Proof. unfold in_s16, s16. pose proof (Z.mod_pos_bound (v + 32768) 65536 ltac:(lia)). lia. Qed.
Lemma s32_range v : in_s32 (s32 v).
Proof. unfold in_s32, s32, two32. pose proof (Z.mod_pos_bound (v + 2147483648) 4294967296 ltac:(lia)). lia. Qed.

Definition dec16 (l : list Z) : Z := from_be_int16 (nth 0 l 0) (nth 1 l 0).
Definition dec32 (l : list Z) : Z := from_be_int32 (nth 0 l 0) (nth 1 l 0) (nth 2 l 0) (nth 3 l 0).
Definition decu32 (l : list Z) : Z := from_be_uint32 (nth 0 l 0) (nth 1 l 0) (nth 2 l 0) (nth 3 l 0).
Definition decf (l : list Z) : Z := from_be_float (nth 0 l 0) (nth 1 l 0) (nth 2 l 0) (nth 3 l 0).

Lemma modbyte x : is_byte (x mod 256).
Proof. unfold is_byte. pose proof (Z.mod_pos_bound x 256 ltac:(lia)). lia. Qed.
Lemma dec16_be v : dec16 (to_big_endian 2 v) = s16 v.
Proof.
  unfold dec16. rewrite <- (s16_mod v), <- to_be2_value, to_be2. cbn [nth]. apply from16_value; apply modbyte.
Qed.
Lemma dec32_be v : dec32 (to_big_endian 4 v) = s32 v.
Proof.
  unfold dec32, from_be_int32. rewrite <- (s32_mod v), <- to_be4_value, to_be4. cbn [nth].
  rewrite or4_value by apply modbyte. reflexivity.
Qed.
Lemma u32_mod v : u32 (v mod two32) = u32 v.
Proof. unfold u32. apply Z.mod_mod. unfold two32; lia. Qed.
Lemma decu32_be v : decu32 (to_big_endian 4 v) = u32 v.
Proof.
  unfold decu32, from_be_uint32. rewrite <- (u32_mod v), <- to_be4_value, to_be4. cbn [nth].
  rewrite or4_value by apply modbyte. reflexivity.
Qed.

Lemma enc16_dec b0 b1 : is_byte b0 -> is_byte b1 -> to_big_endian 2 (from_be_int16 b0 b1) = [b0; b1].
Proof.
  intros H0 H1. rewrite from16_value by assumption. unfold is_byte in *.
  unfold be_value. cbn [fold_left]. set (v := 256 * (256 * 0 + b0) + b1).
  set (k := - ((v + 32768) / 65536)).
  assert (E : s16 v = (b0 + k * 256) * 256 + b1).
  { unfold s16. rewrite (Z.mod_eq (v + 32768) 65536) by lia. unfold k, v. lia. }
  rewrite to_be2, E. rewrite Z.div_add_l, (Z.div_small b1) by lia.
  rewrite Z.add_0_r, Z.mod_add, (Z.mod_small b0) by lia.
  rewrite Z.add_comm, Z.mod_add, (Z.mod_small b1) by lia. reflexivity.
Qed.
Lemma be4_digits b0 b1 b2 b3 k : is_byte b0 -> is_byte b1 -> is_byte b2 -> is_byte b3 ->
  to_big_endian 4 (be_value [b0; b1; b2; b3] + k * two32) = [b0; b1; b2; b3].
Proof.
  unfold is_byte. intros. rewrite to_be4. unfold be_value, two32. cbn [fold_left].
  set (v := 256 * (256 * (256 * (256 * 0 + b0) + b1) + b2) + b3).
  assert (E1 : (v + k * 4294967296) / 256 = (256 * (256 * b0 + b1) + b2) + (k * 65536) * 256).
  { replace (v + k * 4294967296) with (((256 * (256 * b0 + b1) + b2) + (k * 65536) * 256) * 256 + b3) by (unfold v; lia).
    rewrite Z.div_add_l by lia. rewrite Z.div_small; lia. }
  assert (E2 : (v + k * 4294967296) / 65536 = (256 * b0 + b1) + (k * 256) * 256).
  { replace (v + k * 4294967296) with (((256 * b0 + b1) + (k * 256) * 256) * 65536 + (256 * b2 + b3)) by (unfold v; lia).
    rewrite Z.div_add_l by lia. rewrite Z.div_small; lia. }
  assert (E3 : (v + k * 4294967296) / 16777216 = b0 + k * 256).
  { replace (v + k * 4294967296) with ((b0 + k * 256) * 16777216 + (256 * (256 * b1 + b2) + b3)) by (unfold v; lia).
    rewrite Z.div_add_l by lia. rewrite Z.div_small; lia. }
  rewrite E1, E2, E3.
  replace (v + k * 4294967296) with (b3 + (256 * (256 * b0 + b1) + b2 + k * 16777216) * 256) by (unfold v; lia).
  rewrite !Z.mod_add by lia.
  replace (256 * b0 + b1) with (b1 + b0 * 256) by lia.
  replace (256 * (b1 + b0 * 256) + b2) with (b2 + (b1 + b0 * 256) * 256) by lia.
  rewrite !Z.mod_add by lia. rewrite !Z.mod_small by lia. reflexivity.
Qed.
Lemma enc32_dec b0 b1 b2 b3 : is_byte b0 -> is_byte b1 -> is_byte b2 -> is_byte b3 ->
  to_big_endian 4 (from_be_int32 b0 b1 b2 b3) = [b0; b1; b2; b3] /\
  to_big_endian 4 (from_be_uint32 b0 b1 b2 b3) = [b0; b1; b2; b3].
Proof.
  intros H0 H1 H2 H3. unfold from_be_int32, from_be_uint32. rewrite or4_value by assumption.
  pose proof (be4_range _ _ _ _ H0 H1 H2 H3) as R. set (v := be_value [b0; b1; b2; b3]) in *.
  split.
  - assert (E : s32 v = v + (- ((v + 2147483648) / 4294967296)) * two32).
    { unfold s32, two32. rewrite (Z.mod_eq (v + 2147483648) 4294967296) by lia. lia. }
    rewrite E. apply be4_digits; assumption.
  - unfold u32. rewrite Z.mod_small by exact R.
    replace v with (v + 0 * two32) by lia. apply be4_digits; assumption.
Qed.

(** ---- IBM: the unpacked components ---- *)
Definition pow2frac (f : Z) : Prop := 2 ^ 23 <= f < 2 ^ 24.

(** A zero fraction gives the components {0,0,0}, which [to_float] turns into
    the bits 3F000000, that is 0.5. *)
Lemma from_IBM_zero b0 b1 b2 b3 : is_byte b0 -> is_byte b1 -> is_byte b2 -> is_byte b3 ->
  ibm_fraction b1 b2 b3 = 0 -> from_IBM_to_float true b0 b1 b2 b3 = Some 1056964608.
Proof.
  intros H0 H1 H2 H3 Hf. unfold from_IBM_to_float, from_IBM, ibm_bits.
  rewrite or4_value by assumption. unfold u32. rewrite Z.mod_small by (apply be4_range; assumption).
  change 16777215 with (2^24-1). rewrite land_mask by lia.
  replace (be_value [b0; b1; b2; b3]) with (ibm_fraction b1 b2 b3 + b0 * 2^24)
    by (unfold ibm_fraction, be_value; cbn [fold_left]; change (2^24) with 16777216; lia).
  rewrite Z.mod_add by lia. rewrite Hf. vm_compute. reflexivity.
Qed.

Lemma from_IBM_norm b0 b1 b2 b3 : is_byte b0 -> is_byte b1 -> is_byte b2 -> is_byte b3 -> 16 <= b1 ->
  exists s f, 0 <= s <= 3 /\ pow2frac f /\ f = ibm_fraction b1 b2 b3 * 2 ^ s /\
  from_IBM true b0 b1 b2 b3 =
    mkComp (if 128 <=? b0 then 1 else 0) (4 * (b0 mod 128 - 64) - s) (f * 2 ^ 8).
Proof.
  intros H0 H1 H2 H3 Hn. unfold from_IBM, ibm_bits.
  rewrite or4_value by assumption. unfold u32. rewrite (Z.mod_small (be_value _)) by (apply be4_range; assumption).
  set (v := be_value [b0; b1; b2; b3]). set (F := ibm_fraction b1 b2 b3).
  assert (Hv : v = F + b0 * 2^24) by (unfold v, F, ibm_fraction, be_value; cbn [fold_left]; change (2^24) with 16777216; lia).
  assert (HF : 1048576 <= F < 16777216) by (unfold F, ibm_fraction, be_value, is_byte in *; cbn [fold_left]; lia).
  unfold is_byte in *.
  change 16777215 with (2^24-1). change 127 with (2^7-1). change (Z.land ?x 1) with (Z.land x (2^1-1)).
  rewrite !land_mask by lia. rewrite !Z.shiftr_div_pow2 by lia.
  assert (EF : v mod 2^24 = F). { rewrite Hv, Z.mod_add by lia. apply Z.mod_small. change (2^24) with 16777216; lia. }
  assert (Ed : v / 2^24 = b0). { rewrite Hv, Z.div_add by lia. rewrite Z.div_small by (change (2^24) with 16777216; lia). lia. }
  assert (Es : v / 2^31 mod 2^1 = if 128 <=? b0 then 1 else 0).
  { change (2^31) with (2^24 * 2^7). rewrite <- Z.div_div by lia. rewrite Ed. change (2^7) with 128. change (2^1) with 2.
    destruct (Z.leb_spec 128 b0).
    - replace (b0/128) with 1 by (apply Z.div_unique with (b0-128); lia). reflexivity.
    - rewrite Z.div_small by lia. reflexivity. }
  rewrite EF, Ed, Es. change (2^7) with 128.
  destruct (Z.eqb_spec F 0); [lia|].
  assert (EX : exists s, 0 <= s <= 3 /\ nth (Z.to_nat (F / 2^21)) offsets 0 = s /\ 2^23 <= F * 2^s < 2^24).
  { clear - HF. clearbody F. change (2^21) with 2097152. change (2^23) with 8388608. change (2^24) with 16777216.
    assert (C : F < 2097152 \/ 2097152 <= F < 4194304 \/ 4194304 <= F < 8388608 \/ 8388608 <= F) by lia.
    destruct C as [C|[C|[C|C]]].
    - exists 3. rewrite Z.div_small by lia. change (2^3) with 8. split; [lia|]. split; [reflexivity|lia].
    - exists 2. replace (F / 2097152) with 1 by (apply Z.div_unique with (F - 2097152); lia). change (2^2) with 4. split; [lia|]. split; [reflexivity|lia].
    - exists 1. assert (D : F / 2097152 = 2 \/ F / 2097152 = 3).
      { assert (2 <= F / 2097152 < 4) by (split; [apply Z.div_le_lower_bound; lia|apply Z.div_lt_upper_bound; lia]). lia. }
      change (2^1) with 2. destruct D as [-> | ->]; (split; [lia|]; split; [reflexivity|lia]).
    - exists 0. assert (D : F / 2097152 = 4 \/ F / 2097152 = 5 \/ F / 2097152 = 6 \/ F / 2097152 = 7).
      { assert (4 <= F / 2097152 < 8) by (split; [apply Z.div_le_lower_bound; lia|apply Z.div_lt_upper_bound; lia]). lia. }
      change (2^0) with 1. destruct D as [-> | [-> | [-> | ->]]]; (split; [lia|]; split; [reflexivity|lia]). }
  destruct EX as (s & Hs & En & Hf). rewrite En. exists s, (F * 2^s).
  split; [exact Hs|]. split; [exact Hf|]. split; [reflexivity|]. f_equal; [lia|].
  rewrite Z.shiftl_mul_pow2 by lia. rewrite Z.pow_add_r by lia.
  replace (F * (2^8 * 2^s)) with (F * 2^s * 2^8) by lia. apply Z.mod_small.
  unfold two32. change (2^8) with 256. change (2^23) with 8388608 in Hf. change (2^24) with 16777216 in Hf. lia.
Qed.

(** ---- rounding shift = round to nearest even ---- *)
Lemma rshift_nearest f k : 0 <= f < 2 ^ 24 -> 1 <= k < 32 ->
  exists r, rshift_with_rounding f k = Some r /\ r = ZnearestE (IZR f * bpow radix2 (- k)) /\ 0 <= r /\
            (r < 2 ^ 23 \/ (k = 1 /\ Z.odd f = true)).
Proof.
  intros Hf Hk. unfold rshift_with_rounding.
  replace ((k <? 1) || (32 <=? k)) with false by lia.
  rewrite !Z.shiftl_1_l, land_mask by lia. rewrite Z.shiftr_div_pow2 by lia.
  set (q := f / 2^k). set (t := f mod 2^k).
  assert (P : 0 < 2^k) by lia.
  pose proof (Z.div_mod f (2^k) ltac:(lia)) as E. fold q t in E.
  pose proof (Z.mod_pos_bound f (2^k) P) as B. fold t in B.
  assert (Q : 0 <= q) by (unfold q; apply Z.div_pos; lia).
  assert (Q2 : q < 2^23). { unfold q. apply Z.div_lt_upper_bound; [lia|].
    assert (2^1 <= 2^k) by (apply Z.pow_le_mono_r; lia).
    change (2^24) with (2^1 * 2^23) in Hf.
    assert (2^1 * 2^23 <= 2^k * 2^23) by (apply Z.mul_le_mono_nonneg_r; lia). lia. }
  change (2^23) with 8388608 in *.
  set (h := 2^(k-1)). assert (Hh : 2^k = 2 * h). { unfold h. rewrite <- Z.pow_succ_r by lia. f_equal; lia. }
  assert (Hh0 : 0 < h) by (unfold h; lia).
  set (x := (IZR f * bpow radix2 (-k))%R).
  assert (Hx : x = (IZR q + IZR t / IZR (2*h))%R).
  { unfold x. rewrite bpow_opp. rewrite <- (IZR_Zpower radix2 k) by lia. change (IZR (radix2 ^ k)) with (IZR (2^k)).
    rewrite E at 1. rewrite plus_IZR, mult_IZR, Hh. field. apply IZR_neq. lia. }
  assert (Hfl : Zfloor x = q).
  { apply Zfloor_imp. rewrite Hx, plus_IZR.
    assert (0 < IZR (2*h))%R by (apply IZR_lt; lia).
    assert (0 <= IZR t / IZR (2*h))%R by (apply Rmult_le_pos; [apply IZR_le; lia|left; apply Rinv_0_lt_compat; assumption]).
    assert (IZR t / IZR (2*h) < 1)%R.
    { apply Rmult_lt_reg_r with (IZR (2*h)); [assumption|]. unfold Rdiv. rewrite Rmult_assoc, Rinv_l, Rmult_1_r, Rmult_1_l by lra.
      apply IZR_lt. lia. }
    lra. }
  assert (Hcmp : Rcompare (x - IZR (Zfloor x)) (/2) = Z.compare t h).
  { rewrite Hfl, Hx. replace (IZR q + IZR t / IZR (2*h) - IZR q)%R with (IZR t / IZR (2*h))%R by ring.
    rewrite mult_IZR. assert (0 < IZR h)%R by (apply IZR_lt; lia).
    rewrite <- (Rcompare_mult_r (2 * IZR h)) by lra.
    replace (IZR t / (2 * IZR h) * (2 * IZR h))%R with (IZR t) by (field; lra).
    replace (/2 * (2 * IZR h))%R with (IZR h) by field. apply Rcompare_IZR. }
  assert (U : u32 (q+1) = q+1) by (unfold u32, two32; apply Z.mod_small; lia).
  assert (CE : t <> 0 -> Zceil x = q + 1).
  { intros Ht. rewrite Zceil_floor_neq, Hfl; [reflexivity|].
    rewrite Hfl, Hx. assert (0 < IZR (2*h))%R by (apply IZR_lt; lia).
    assert (0 < IZR t / IZR (2*h))%R by (apply Rmult_lt_0_compat; [apply IZR_lt; lia|apply Rinv_0_lt_compat; assumption]). lra. }
  assert (Bd : forall r, q <= r <= q + 1 -> (r = q + 1 -> t <> 0) -> 0 <= r /\ (r < 8388608 \/ (k = 1 /\ Z.odd f = true))).
  { intros r Hr Ht. split; [lia|]. destruct (Z.eq_dec k 1) as [K|K].
    - destruct (Z.eq_dec r (q+1)) as [R|R]; [|left; lia]. right. split; [exact K|].
      specialize (Ht R). rewrite K in *. change (2^1) with 2 in *. assert (T1 : t = 1) by lia.
      rewrite E, T1. rewrite Z.add_comm, Z.odd_add_mul_2. reflexivity.
    - left. assert (q < 4194304); [|lia]. unfold q. apply Z.div_lt_upper_bound; [lia|].
      assert (2^2 <= 2^k) by (apply Z.pow_le_mono_r; lia). change (2^24) with (2^2 * 4194304) in Hf.
      assert (2^2 * 4194304 <= 2^k * 4194304) by (apply Z.mul_le_mono_nonneg_r; lia). lia. }
  eexists. split; [reflexivity|]. unfold Znearest. rewrite Hcmp.
  change (Z.land q 1) with (Z.land q (2^1-1)). rewrite land_mask by lia. change (2^1) with 2.
  destruct (Z.compare_spec t h) as [C|C|C].
  - replace (h <? t) with false by lia. replace (t =? h) with true by lia.
    rewrite Hfl, CE, U by lia.
    rewrite Zmod_odd, <- Z.negb_even. destruct (Z.even q); cbn [negb Z.eqb Pos.eqb].
    + split; [reflexivity|]. apply Bd; lia.
    + split; [reflexivity|]. apply Bd; lia.
  - replace (h <? t) with false by lia. replace (t =? h) with false by lia. rewrite Hfl. split; [reflexivity|]. apply Bd; lia.
  - replace (h <? t) with true by lia. rewrite CE, U by lia. split; [reflexivity|]. apply Bd; lia.
Qed.

(** ---- the value of an assembled 32-bit pattern ---- *)
Definition sgn (s : bool) : R := if s then (-1)%R else 1%R.
Lemma b32_fields (s : bool) e m : 0 <= m < 2 ^ 23 -> 0 <= e < 255 ->
  let bits := (if s then 1 else 0) * 2 ^ 31 + e * 2 ^ 23 + m in
  float_is_finite bits = true /\
  float_value bits = (sgn s * IZR (if e =? 0 then m else 2 ^ 23 + m) * bpow radix2 (if e =? 0 then -149 else e - 150))%R.
Proof.
  intros Hm He bits.
  assert (J : bits = join_bits 23 8 s m e).
  { unfold bits, join_bits. rewrite Z.shiftl_mul_pow2 by lia. change (2^8) with 256. change (2^23) with 8388608. change (2^31) with (256*8388608). destruct s; lia. }
  assert (A : binary_float_of_bits_aux 23 8 bits =
     if e =? 0 then match m with Z0 => Binary.F754_zero s | Zpos p => Binary.F754_finite s p (-149) | Zneg _ => Binary.F754_nan false xH end
     else match m + 8388608 with Zpos p => Binary.F754_finite s p (e - 150) | _ => Binary.F754_nan false xH end).
  { unfold binary_float_of_bits_aux. rewrite J, split_join_bits by (change (2^8) with 256; lia).
    destruct (Z.eqb_spec e 0) as [E|E].
    - subst e. reflexivity.
    - replace (Zeq_bool e 0) with false by (symmetry; apply Zeq_bool_false_iff || (destruct (Zeq_bool e 0) eqn:X; [apply Zeq_bool_eq in X; lia|reflexivity])).
      replace (Zeq_bool e (2^8-1)) with false by (destruct (Zeq_bool e (2^8-1)) eqn:X; [apply Zeq_bool_eq in X; change (2^8-1) with 255 in X; lia|reflexivity]).
      change (2^23) with 8388608. destruct (m + 8388608); try reflexivity.
      f_equal. cbn. lia. }
  unfold float_is_finite, float_value, b32_of_bits, binary_float_of_bits.
  rewrite Binary.is_finite_FF2B, Binary.B2R_FF2B.
  change (binary_float_of_bits_aux 23 (23+1)) with (binary_float_of_bits_aux 23 8) || idtac.
  rewrite A. destruct (e =? 0) eqn:Ee.
  - destruct m as [|p|p]; [cbn| |lia].
    + split; [reflexivity|]. ring.
    + split; [reflexivity|]. cbn [Binary.FF2R]. unfold F2R. cbn [Fnum Fexp]. destruct s; cbn [cond_Zopp sgn].
      * change (Z.neg p) with (- Z.pos p). rewrite opp_IZR. ring.
      * ring.
  - destruct (m + 8388608) as [|p|p] eqn:Em; [lia| |lia].
    split; [reflexivity|]. cbn [Binary.FF2R]. unfold F2R. cbn [Fnum Fexp]. change (2^23) with 8388608.
    replace (8388608 + m) with (Z.pos p) by lia. destruct s; cbn [cond_Zopp sgn].
    + change (Z.neg p) with (- Z.pos p). rewrite opp_IZR. ring.
    + ring.
Qed.

Lemma assemble (s : bool) e m : 0 <= m < 2 ^ 23 -> 0 <= e < 256 ->
  Z.lor (Z.lor (u32 (Z.shiftl (if s then 1 else 0) 31)) (Z.shiftl e 23)) m =
  (if s then 1 else 0) * 2 ^ 31 + e * 2 ^ 23 + m.
Proof.
  intros Hm He. rewrite !Z.shiftl_mul_pow2 by lia.
  assert (U : u32 ((if s then 1 else 0) * 2^31) = (if s then 1 else 0) * 2^31) by (destruct s; reflexivity).
  rewrite U, lor_add by (change (2^31) with 2147483648; change (2^23) with 8388608; lia).
  replace ((if s then 1 else 0) * 2^31 + e * 2^23) with (((if s then 1 else 0) * 256 + e) * 2^23) by (change (2^31) with (256 * 2^23); lia).
  rewrite lor_add by lia. lia.
Qed.

(** to_float on normalised components *)
Lemma to_float_normal (s : bool) E f : pow2frac f -> -125 <= E <= 128 ->
  exists r, to_float (mkComp (if s then 1 else 0) E (f * 2 ^ 8)) = Some r /\ float_is_finite r = true /\
            float_value r = (sgn s * IZR f * bpow radix2 (E - 24))%R.
Proof.
  unfold pow2frac. intros Hf HE. unfold to_float. cbn [c_sign c_exponent c_significand].
  rewrite Z.shiftr_div_pow2, Z.div_mul by lia.
  replace (E + 127 - 1 <=? 0) with false by lia. replace (255 <=? E + 127 - 1) with false by lia.
  change 8388607 with (2^23-1). change (Z.land (E+127-1) 255) with (Z.land (E+127-1) (2^8-1)). rewrite !land_mask by lia.
  rewrite (Z.mod_small (E+127-1)) by (change (2^8) with 256; lia).
  assert (Em : f mod 2^23 = f - 2^23).
  { symmetry. apply Z.mod_unique with 1; change (2^24) with (2 * 2^23) in Hf; lia. }
  rewrite Em. rewrite assemble by (change (2^24) with (2 * 2^23) in Hf; lia).
  eexists. split; [reflexivity|].
  destruct (b32_fields s (E+127-1) (f - 2^23)) as (A & B); [change (2^24) with (2 * 2^23) in Hf; lia|lia|].
  split; [exact A|]. rewrite B. replace (E + 127 - 1 =? 0) with false by lia.
  replace (2^23 + (f - 2^23)) with f by lia. replace (E + 127 - 1 - 150) with (E - 24) by lia. reflexivity.
Qed.

Lemma to_float_overflow (s : bool) E f : 128 < E ->
  to_float (mkComp (if s then 1 else 0) E f) = Some (if s then minus_inf else plus_inf).
Proof.
  intros HE. unfold to_float. cbn [c_sign c_exponent c_significand].
  replace (E + 127 - 1 <=? 0) with false by lia. replace (255 <=? E + 127 - 1) with true by lia.
  destruct s; vm_compute; reflexivity.
Qed.

Lemma to_float_subnormal (s : bool) E f : pow2frac f -> -156 <= E <= -126 -> (E = -126 -> Z.odd f = false) ->
  exists r, to_float (mkComp (if s then 1 else 0) E (f * 2 ^ 8)) = Some r /\ float_is_finite r = true /\
            (float_value r = sgn s * IZR (ZnearestE (IZR f * bpow radix2 (E + 125))) * bpow radix2 (-149))%R.
Proof.
  unfold pow2frac. intros Hf HE Hodd. unfold to_float. cbn [c_sign c_exponent c_significand].
  rewrite Z.shiftr_div_pow2, Z.div_mul by lia.
  replace (E + 127 - 1 <=? 0) with true by lia.
  destruct (rshift_nearest f (- (E + 127 - 1) + 1)) as (r & Hr & Er & Br & Br2); [lia|lia|].
  rewrite Hr. replace (- (- (E + 127 - 1) + 1)) with (E + 125) in Er by lia.
  assert (Hr23 : r < 2^23). { destruct Br2 as [|(K & O)]; [assumption|]. rewrite Hodd in O by lia. discriminate. }
  replace (255 <=? 0) with false by lia.
  change 8388607 with (2^23-1). change (Z.land 0 255) with 0. rewrite land_mask, Z.mod_small by lia.
  rewrite assemble by lia. eexists. split; [reflexivity|].
  destruct (b32_fields s 0 r) as (A & B); [lia|lia|].
  split; [exact A|]. rewrite B. cbn [Z.eqb]. rewrite <- Er. reflexivity.
Qed.

(** ---- rounding of the reals ---- *)
Lemma sgn_cases s : sgn s = 1%R \/ sgn s = (-1)%R.
Proof. destruct s; cbn; auto. Qed.
Lemma round_sgn s x : round_single (sgn s * x) = (sgn s * round_single x)%R.
Proof.
  destruct (sgn_cases s) as [-> | ->].
  - rewrite !Rmult_1_l. reflexivity.
  - replace (-1 * x)%R with (- x)%R by ring. unfold round_single. rewrite round_NE_opp. ring.
Qed.
Lemma mag_f f E : pow2frac f -> mag radix2 (IZR f * bpow radix2 (E - 24)) = E :> Z.
Proof.
  unfold pow2frac. intros (H1 & H2). apply mag_unique.
  assert (P : (0 < bpow radix2 (E - 24))%R) by apply bpow_gt_0.
  rewrite Rabs_pos_eq by (apply Rmult_le_pos; [apply IZR_le; lia|lra]).
  split.
  - replace (E - 1) with (23 + (E - 24)) by lia. rewrite bpow_plus.
    apply Rmult_le_compat_r; [lra|]. rewrite <- IZR_Zpower by lia. apply IZR_le. exact H1.
  - replace E with (24 + (E - 24)) at 2 by lia. rewrite bpow_plus.
    apply Rmult_lt_compat_r; [lra|]. rewrite <- IZR_Zpower by lia. apply IZR_lt. exact H2.
Qed.
Lemma round_normal f E : pow2frac f -> -125 <= E ->
  round_single (IZR f * bpow radix2 (E - 24)) = (IZR f * bpow radix2 (E - 24))%R.
Proof.
  intros Hf HE. unfold round_single. apply round_generic; [apply valid_rnd_N|].
  apply generic_format_FLT. exists (Float radix2 f (E - 24)); cbn [Fnum Fexp].
  - reflexivity.
  - unfold pow2frac in Hf. change (radix_val radix2) with 2. rewrite Z.abs_eq by lia. lia.
  - lia.
Qed.
Lemma round_subnormal f E : pow2frac f -> E <= -126 ->
  round_single (IZR f * bpow radix2 (E - 24)) =
  (IZR (ZnearestE (IZR f * bpow radix2 (E + 125))) * bpow radix2 (-149))%R.
Proof.
  intros Hf HE. unfold round_single, round, F2R. cbn [Fnum Fexp]. unfold scaled_mantissa, cexp.
  rewrite (mag_f f E Hf). unfold FLT_exp. rewrite Z.max_r by lia.
  do 3 f_equal. rewrite Rmult_assoc, <- bpow_plus. do 2 f_equal. lia.
Qed.

(** ---- the main facts ---- *)
Lemma ibm_value_norm b0 b1 b2 b3 s : 0 <= s ->
  ibm_value b0 b1 b2 b3 =
  (sgn (128 <=? b0)%Z * (IZR (ibm_fraction b1 b2 b3 * 2 ^ s) * bpow radix2 (4 * (b0 mod 128 - 64) - s - 24)))%R.
Proof.
  intros Hs. unfold ibm_value. rewrite mult_IZR. change (IZR (2^s)) with (IZR (radix2 ^ s)). rewrite (IZR_Zpower radix2 s Hs).
  replace (IZR (ibm_fraction b1 b2 b3) * bpow radix2 s * bpow radix2 (4 * (b0 mod 128 - 64) - s - 24))%R
    with (IZR (ibm_fraction b1 b2 b3) * (bpow radix2 s * bpow radix2 (4 * (b0 mod 128 - 64) - s - 24)))%R by ring.
  rewrite <- bpow_plus. replace (s + (4 * (b0 mod 128 - 64) - s - 24)) with (4 * (b0 mod 128 - 64) - 24) by lia.
  unfold sgn. ring.
Qed.
Lemma abs_sgn s x : (0 <= x)%R -> Rabs (sgn s * x) = x.
Proof.
  intros. rewrite Rabs_mult, (Rabs_pos_eq x) by assumption.
  destruct (sgn_cases s) as [-> | ->]; [rewrite Rabs_R1|rewrite Rabs_Ropp, Rabs_R1 || (rewrite Rabs_left by lra)]; ring.
Qed.

Lemma bpow_half_lt_iff f E k : pow2frac f ->
  ((IZR f * bpow radix2 (E - 24) < bpow radix2 k)%R <-> E <= k).
Proof.
  intros Hf. pose proof (mag_f f E Hf) as M.
  assert (P : (0 < IZR f * bpow radix2 (E-24))%R).
  { apply Rmult_lt_0_compat; [apply IZR_lt; unfold pow2frac in Hf; lia|apply bpow_gt_0]. }
  split.
  - intros H. rewrite <- M. apply mag_le_bpow; [lra|]. rewrite Rabs_pos_eq; lra.
  - intros H. rewrite <- (Rabs_pos_eq (IZR f * bpow radix2 (E-24))) by lra.
    eapply Rlt_le_trans; [apply bpow_mag_gt|]. rewrite M. apply bpow_le. exact H.
Qed.

Lemma ibm_rounds b0 b1 b2 b3 :
  is_byte b0 -> is_byte b1 -> is_byte b2 -> is_byte b3 -> ibm_normalised b1 ->
  (bpow radix2 (-157) <= Rabs (ibm_value b0 b1 b2 b3) < bpow radix2 128)%R ->
  exists r, from_IBM_to_float true b0 b1 b2 b3 = Some r /\ float_is_finite r = true /\
            float_value r = round_single (ibm_value b0 b1 b2 b3).
Proof.
  intros H0 H1 H2 H3 Hn Hr. unfold ibm_normalised in Hn.
  destruct (from_IBM_norm b0 b1 b2 b3 H0 H1 H2 H3 Hn) as (s & f & Hs & Hf & Ef & Hc).
  unfold from_IBM_to_float. rewrite Hc.
  rewrite (ibm_value_norm b0 b1 b2 b3 s) in * by lia. rewrite <- Ef in *.
  set (E := 4 * (b0 mod 128 - 64) - s) in *. set (sg := 128 <=? b0) in *.
  assert (P : (0 <= IZR f * bpow radix2 (E - 24))%R).
  { apply Rmult_le_pos; [apply IZR_le; unfold pow2frac in Hf; lia|apply bpow_ge_0]. }
  rewrite abs_sgn in Hr by exact P. rewrite round_sgn.
  assert (HEu : E <= 128) by (apply (bpow_half_lt_iff f E 128 Hf); lra).
  assert (HEl : -156 <= E).
  { destruct (Z_le_gt_dec E (-157)) as [L|G]; [|lia]. apply (bpow_half_lt_iff f E (-157) Hf) in L. lra. }
  destruct (Z_le_gt_dec (-125) E) as [N|N].
  - destruct (to_float_normal sg E f Hf ltac:(lia)) as (r & A & B & C).
    exists r. split; [exact A|]. split; [exact B|]. rewrite C, round_normal by (assumption || lia). ring.
  - destruct (to_float_subnormal sg E f Hf ltac:(lia)) as (r & A & B & C).
    + intros E126. rewrite Ef. assert (s = 2) by (unfold E in E126; lia). subst s.
      rewrite Z.odd_mul. replace (Z.odd (2^2)) with false by reflexivity. apply andb_false_r.
    + exists r. split; [exact A|]. split; [exact B|]. rewrite C, round_subnormal by (assumption || lia). ring.
Qed.

Lemma ibm_exact b0 b1 b2 b3 :
  is_byte b0 -> is_byte b1 -> is_byte b2 -> is_byte b3 -> ibm_normalised b1 ->
  (bpow radix2 (-126) <= Rabs (ibm_value b0 b1 b2 b3) < bpow radix2 128)%R ->
  exists r, from_IBM_to_float true b0 b1 b2 b3 = Some r /\ float_is_finite r = true /\
            float_value r = ibm_value b0 b1 b2 b3.
Proof.
  intros H0 H1 H2 H3 Hn Hr.
  destruct (from_IBM_norm b0 b1 b2 b3 H0 H1 H2 H3 Hn) as (s & f & Hs & Hf & Ef & Hc).
  unfold from_IBM_to_float. rewrite Hc.
  rewrite (ibm_value_norm b0 b1 b2 b3 s) in * by lia. rewrite <- Ef in *.
  set (E := 4 * (b0 mod 128 - 64) - s) in *. set (sg := 128 <=? b0) in *.
  assert (P : (0 <= IZR f * bpow radix2 (E - 24))%R).
  { apply Rmult_le_pos; [apply IZR_le; unfold pow2frac in Hf; lia|apply bpow_ge_0]. }
  rewrite abs_sgn in Hr by exact P.
  assert (HEu : E <= 128) by (apply (bpow_half_lt_iff f E 128 Hf); lra).
  assert (HEl : -125 <= E).
  { destruct (Z_le_gt_dec E (-126)) as [L|G]; [|lia]. apply (bpow_half_lt_iff f E (-126) Hf) in L. lra. }
  destruct (to_float_normal sg E f Hf ltac:(lia)) as (r & A & B & C).
  exists r. split; [exact A|]. split; [exact B|]. rewrite C. ring.
Qed.

Lemma ibm_overflow b0 b1 b2 b3 :
  is_byte b0 -> is_byte b1 -> is_byte b2 -> is_byte b3 -> ibm_normalised b1 ->
  (bpow radix2 128 <= Rabs (ibm_value b0 b1 b2 b3))%R ->
  from_IBM_to_float true b0 b1 b2 b3 = Some (if 128 <=? b0 then minus_inf else plus_inf).
Proof.
  intros H0 H1 H2 H3 Hn Hr.
  destruct (from_IBM_norm b0 b1 b2 b3 H0 H1 H2 H3 Hn) as (s & f & Hs & Hf & Ef & Hc).
  unfold from_IBM_to_float. rewrite Hc.
  rewrite (ibm_value_norm b0 b1 b2 b3 s) in * by lia. rewrite <- Ef in *.
  set (E := 4 * (b0 mod 128 - 64) - s) in *.
  assert (P : (0 <= IZR f * bpow radix2 (E - 24))%R).
  { apply Rmult_le_pos; [apply IZR_le; unfold pow2frac in Hf; lia|apply bpow_ge_0]. }
  rewrite abs_sgn in Hr by exact P.
  apply to_float_overflow. destruct (Z_le_gt_dec E 128) as [L|G]; [|lia].
  apply (bpow_half_lt_iff f E 128 Hf) in L. lra.
Qed.

(** A nonzero normalised value below 2^-157 makes the code shift by more than 31. *)
Lemma ibm_tiny_undefined b0 b1 b2 b3 :
  is_byte b0 -> is_byte b1 -> is_byte b2 -> is_byte b3 -> ibm_normalised b1 ->
  (Rabs (ibm_value b0 b1 b2 b3) < bpow radix2 (-157))%R ->
  from_IBM_to_float true b0 b1 b2 b3 = None.
Proof.
  intros H0 H1 H2 H3 Hn Hr.
  destruct (from_IBM_norm b0 b1 b2 b3 H0 H1 H2 H3 Hn) as (s & f & Hs & Hf & Ef & Hc).
  unfold from_IBM_to_float. rewrite Hc.
  rewrite (ibm_value_norm b0 b1 b2 b3 s) in * by lia. rewrite <- Ef in *.
  set (E := 4 * (b0 mod 128 - 64) - s) in *.
  assert (P : (0 <= IZR f * bpow radix2 (E - 24))%R).
  { apply Rmult_le_pos; [apply IZR_le; unfold pow2frac in Hf; lia|apply bpow_ge_0]. }
  rewrite abs_sgn in Hr by exact P. apply (bpow_half_lt_iff f E (-157) Hf) in Hr.
  unfold to_float. cbn [c_exponent]. replace (E + 127 - 1 <=? 0) with true by lia.
  unfold rshift_with_rounding. replace ((- (E + 127 - 1) + 1 <? 1) || (32 <=? - (E + 127 - 1) + 1)) with true by lia.
  reflexivity.
Qed.

Lemma little_endian_order b0 b1 b2 b3 :
  from_IBM_to_float false b3 b2 b1 b0 = from_IBM_to_float true b0 b1 b2 b3.
Proof. reflexivity. Qed.
