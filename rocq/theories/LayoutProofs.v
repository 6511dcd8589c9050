From Verif Require Import Base DecompProofs LayoutModel.

(** The layout without wrap-around: the file fits in 64 bits. *)
Definition fits (nt ns : Z) : Prop := 0 <= ns /\ 0 <= nt /\ 3600 + nt * (240 + 4 * ns) < two64 /\ 240 + 4 * ns < two64.

Lemma getDFSz_exact ns : 0 <= ns -> 240 + 4 * ns < two64 -> getDFSz ns = 4 * ns.
Proof. intros. unfold getDFSz. rewrite u64_small by (unfold in_u64; lia). lia. Qed.
Lemma getDOSz_exact ns : 0 <= ns -> 240 + 4 * ns < two64 -> getDOSz ns = 240 + 4 * ns.
Proof.
  intros. unfold getDOSz, getMDSz. rewrite getDFSz_exact by assumption.
  apply u64_small. unfold in_u64; lia.
Qed.
Lemma getFileSz_exact nt ns : fits nt ns -> getFileSz nt ns = 3600 + nt * (240 + 4 * ns).
Proof.
  unfold fits. intros (H1 & H2 & H3 & H4). unfold getFileSz, getHOSz.
  rewrite getDOSz_exact by assumption.
  assert (0 <= nt * (240 + 4 * ns)) by (apply Z.mul_nonneg_nonneg; lia).
  rewrite (u64_small (nt * (240 + 4 * ns))) by (unfold in_u64; lia).
  apply u64_small. unfold in_u64; lia.
Qed.
Lemma fits_le i nt ns : fits nt ns -> 0 <= i <= nt -> fits i ns.
Proof.
  unfold fits. intros (H1 & H2 & H3 & H4) Hi. repeat split; try lia.
  assert (i * (240 + 4 * ns) <= nt * (240 + 4 * ns)) by (apply Z.mul_le_mono_nonneg_r; lia). lia.
Qed.
Lemma getDOLoc_exact i nt ns : fits nt ns -> 0 <= i <= nt -> getDOLoc i ns = 3600 + i * (240 + 4 * ns).
Proof. intros. apply getFileSz_exact. eapply fits_le; eassumption. Qed.
Lemma getDODFLoc_exact i nt ns : fits nt ns -> 0 <= i < nt -> getDODFLoc i ns = 3600 + i * (240 + 4 * ns) + 240.
Proof.
  intros Hf Hi. unfold getDODFLoc. rewrite (getFileSz_exact i ns) by (eapply fits_le; [eassumption|lia]).
  apply u64_small. unfold fits in Hf. unfold in_u64, getMDSz.
  assert ((i+1) * (240 + 4 * ns) <= nt * (240 + 4 * ns)) by (apply Z.mul_le_mono_nonneg_r; lia).
  assert (0 <= i * (240 + 4 * ns)) by (apply Z.mul_nonneg_nonneg; lia). lia.
Qed.

(** Every byte of the file belongs to exactly one of: the file header, the
    metadata of one trace, the samples of one trace. *)
Inductive region := Header | Metadata (i : Z) | Samples (i : Z).
Definition region_range (ns : Z) (r : region) : Z * Z :=  (* start, length *)
  match r with
  | Header => (0, getHOSz)
  | Metadata i => (getDOLoc i ns, getMDSz)
  | Samples i => (getDODFLoc i ns, getDFSz ns)
  end.
Definition region_of (nt : Z) (r : region) : Prop :=
  match r with Header => True | Metadata i => 0 <= i < nt | Samples i => 0 <= i < nt end.
Definition in_region (ns : Z) (r : region) (x : Z) : Prop :=
  fst (region_range ns r) <= x < fst (region_range ns r) + snd (region_range ns r).

Lemma regions_tile nt ns x :
  fits nt ns -> 0 <= x < getFileSz nt ns ->
  exists! r, region_of nt r /\ in_region ns r x.
Proof.
  intros Hf Hx. rewrite getFileSz_exact in Hx by assumption.
  pose proof Hf as (Hns & Hnt & H64 & Hd).
  assert (HM : forall i, 0 <= i < nt -> in_region ns (Metadata i) x <->
            3600 + i * (240 + 4*ns) <= x < 3600 + i * (240 + 4*ns) + 240).
  { intros i Hi. unfold in_region; cbn [region_range fst snd].
    rewrite (getDOLoc_exact i nt) by (assumption || lia). reflexivity. }
  assert (HS : forall i, 0 <= i < nt -> in_region ns (Samples i) x <->
            3600 + i * (240 + 4*ns) + 240 <= x < 3600 + (i+1) * (240 + 4*ns)).
  { intros i Hi. unfold in_region; cbn [region_range fst snd].
    rewrite (getDODFLoc_exact i nt), getDFSz_exact by (assumption || lia).
    split; intros; lia. }
  set (D := 240 + 4 * ns) in *. assert (HD : 240 <= D) by (unfold D; lia).
  assert (EQ : forall i j o, 0 <= i -> 0 <= j -> i * D <= o < (i+1) * D -> j * D <= o < (j+1)*D -> i = j).
  { intros i j o Hi Hj H1 H2. destruct (Z.lt_trichotomy i j) as [L|[E|L]]; [|exact E|].
    - pose proof (Z.mul_le_mono_nonneg_r (i+1) j D ltac:(lia) ltac:(lia)). lia.
    - pose proof (Z.mul_le_mono_nonneg_r (j+1) i D ltac:(lia) ltac:(lia)). lia. }
  destruct (Z_lt_ge_dec x 3600) as [L|G].
  - exists Header. split.
    + split; [exact I|]. unfold in_region; cbn. unfold getHOSz. lia.
    + intros r (Hr & Hin). destruct r as [|i|i]; [reflexivity| |]; cbn in Hr.
      * apply HM in Hin; [|exact Hr]. assert (0 <= i * D) by (apply Z.mul_nonneg_nonneg; lia). lia.
      * apply HS in Hin; [|exact Hr]. assert (0 <= i * D) by (apply Z.mul_nonneg_nonneg; lia). lia.
  - set (o := x - 3600). set (i := o / D).
    assert (Ho : i * D <= o < (i+1) * D).
    { unfold i. pose proof (Z.div_mod o D ltac:(lia)). pose proof (Z.mod_pos_bound o D ltac:(lia)). lia. }
    assert (Hi0 : 0 <= i) by (unfold i; apply Z.div_pos; lia).
    assert (Hint : i < nt).
    { destruct (Z_lt_ge_dec i nt); [assumption|].
      pose proof (Z.mul_le_mono_nonneg_r nt i D ltac:(lia) ltac:(lia)). unfold o in *. lia. }
    assert (UNIQ : forall r, region_of nt r /\ in_region ns r x ->
              (r = Metadata i /\ o < i * D + 240) \/ (r = Samples i /\ i * D + 240 <= o)).
    { intros r (Hr & Hin). destruct r as [|j|j]; cbn in Hr.
      - unfold in_region in Hin; cbn in Hin. unfold getHOSz in Hin. lia.
      - apply HM in Hin; [|exact Hr].
        assert (i = j). { apply (EQ i j o); unfold o; try lia. }
        subst j. left. split; [reflexivity|unfold o; lia].
      - apply HS in Hin; [|exact Hr].
        assert (i = j). { apply (EQ i j o); unfold o; try lia. }
        subst j. right. split; [reflexivity|unfold o; lia]. }
    destruct (Z_lt_ge_dec o (i * D + 240)) as [Lo|Go].
    + exists (Metadata i). split.
      * split; [cbn; lia|]. apply HM; unfold o in *; lia.
      * intros r Hr. destruct (UNIQ r Hr) as [(-> & _)|(_ & ?)]; [reflexivity|lia].
    + exists (Samples i). split.
      * split; [cbn; lia|]. apply HS; unfold o in *; lia.
      * intros r Hr. destruct (UNIQ r Hr) as [(_ & ?)|(-> & _)]; [lia|reflexivity].
Qed.

Lemma regions_inside nt ns r :
  fits nt ns -> region_of nt r ->
  0 <= fst (region_range ns r) /\ fst (region_range ns r) + snd (region_range ns r) <= getFileSz nt ns.
Proof.
  intros Hf Hr. rewrite getFileSz_exact by assumption. pose proof Hf as (Hns & Hnt & H64 & Hd).
  assert (0 <= nt * (240 + 4*ns)) by (apply Z.mul_nonneg_nonneg; lia).
  destruct r as [|i|i]; cbn [region_range fst snd region_of] in *.
  - unfold getHOSz. lia.
  - rewrite (getDOLoc_exact i nt) by (assumption || lia). unfold getMDSz.
    assert ((i+1) * (240 + 4 * ns) <= nt * (240 + 4 * ns)) by (apply Z.mul_le_mono_nonneg_r; lia).
    assert (0 <= i * (240 + 4*ns)) by (apply Z.mul_nonneg_nonneg; lia). lia.
  - rewrite (getDODFLoc_exact i nt), getDFSz_exact by (assumption || lia).
    assert ((i+1) * (240 + 4 * ns) <= nt * (240 + 4 * ns)) by (apply Z.mul_le_mono_nonneg_r; lia).
    assert (0 <= i * (240 + 4*ns)) by (apply Z.mul_nonneg_nonneg; lia). lia.
Qed.

Lemma getNt_of_size nt ns extra :
  fits nt ns -> 0 <= extra < getDOSz ns -> getFileSz nt ns + extra < two64 ->
  getNt (getFileSz nt ns + extra) ns = Some nt.
Proof.
  intros Hf He H64. pose proof Hf as (Hns & Hnt & H64' & Hd). unfold getNt.
  rewrite getDOSz_exact in * by assumption. rewrite getFileSz_exact in * by assumption.
  destruct (Z.eqb_spec (240 + 4 * ns) 0); [lia|]. f_equal.
  assert (0 <= nt * (240 + 4*ns)) by (apply Z.mul_nonneg_nonneg; lia).
  unfold getHOSz. rewrite u64_small by (unfold in_u64; lia).
  replace (3600 + nt * (240 + 4 * ns) + extra - 3600) with (nt * (240 + 4 * ns) + extra) by lia.
  rewrite Z.div_add_l by lia. rewrite Z.div_small by lia. lia.
Qed.

Lemma lor_shift8 a b : 0 <= b < 256 -> Z.lor (Z.shiftl a 8) b = 256 * a + b.
Proof.
  intros Hb. rewrite Z.shiftl_mul_pow2 by lia. change (2 ^ 8) with 256.
  assert (E : Z.land (a * 256) b = 0).
  { apply Z.bits_inj'. intros n Hn. rewrite Z.land_spec, Z.bits_0.
    destruct (Z_lt_ge_dec n 8).
    - change 256 with (2^8). rewrite Z.mul_pow2_bits_low by lia. reflexivity.
    - destruct (Z.eq_dec b 0) as [->|]; [rewrite Z.bits_0; apply andb_false_r|].
      rewrite (Z.bits_above_log2 b n); [apply andb_false_r|lia|].
      assert (Z.log2 b < 8) by (apply Z.log2_lt_pow2; [lia|change (2^8) with 256; lia]). lia. }
  rewrite <- Z.lxor_lor by exact E. rewrite <- Z.add_nocarry_lxor by exact E. lia.
Qed.

Lemma read_ns_small b0 b1 : 0 <= b0 < 128 -> 0 <= b1 < 256 -> read_ns b0 b1 = 256 * b0 + b1.
Proof.
  intros. unfold read_ns. rewrite lor_shift8 by assumption. unfold s16.
  rewrite Z.mod_small by lia. rewrite u64_small; [lia|]. unfold in_u64, two64; lia.
Qed.

Lemma open_defined fsz b0 b1 :
  0 <= b0 < 128 -> 0 <= b1 < 256 -> 3600 <= fsz < two64 ->
  exists nt, read_nt fsz b0 b1 = Some nt /\ fits nt (256 * b0 + b1) /\
             getFileSz nt (256 * b0 + b1) <= fsz < getFileSz nt (256 * b0 + b1) + getDOSz (256 * b0 + b1).
Proof.
  intros Hb0 Hb1 Hf. unfold read_nt. rewrite read_ns_small by assumption.
  set (ns := 256 * b0 + b1). assert (Hns : 0 <= ns < 32768) by (unfold ns; lia).
  unfold getNt. rewrite getDOSz_exact by (unfold two64; lia).
  destruct (Z.eqb_spec (240 + 4 * ns) 0); [lia|]. unfold getHOSz.
  rewrite u64_small by (unfold in_u64; lia). eexists; split; [reflexivity|].
  set (D := 240 + 4 * ns). assert (240 <= D < 200000) by (unfold D; lia).
  pose proof (Z.div_mod (fsz - 3600) D ltac:(lia)) as E.
  pose proof (Z.mod_pos_bound (fsz - 3600) D ltac:(lia)) as B.
  assert (Q : 0 <= (fsz - 3600) / D) by (apply Z.div_pos; lia).
  set (nt := (fsz - 3600) / D) in *.
  assert (Hfits : fits nt ns). { unfold fits. fold D. repeat split; try lia. unfold two64; lia. }
  split; [exact Hfits|]. rewrite getFileSz_exact by exact Hfits. fold D. lia.
Qed.
