(** C35, C36: coordinates with at most four decimals. *)
From Coq Require Import Reals Lra Lia.
From Flocq Require Import Core IEEE754.BinarySingleNaN.
From Verif Require Import Base NumEncModel NumEncProofs DataIOModel RuleModel RuleProofs RuleProperties DoubleModel ParamModel ParamProofs HeaderProofs ScalarProofs ParamProperties DecimalSpec DecimalProofs.
Import ListNotations.
Open Scope Z_scope.

(** The coordinates of trace t of p that share the scale factor at byte b of the header
    are all decimals, and all fit at some scale. *)
Definition decimals_fit (p : param) (t b s : Z) : Prop := ok_scale s /\
  forall m e, lookup m (translate (p_rule p)) = Some e -> e_type e = MFloat -> e_scal e = b ->
    exists n v, getPrm t m p = Some (VF v) /\ decimal n v /\ fits n s.
Lemma decimals_wf :
  forall p q sz buf buf' stride skip skip2,
  wf_param p -> wf_param q -> p_rule q = p_rule p -> usable (p_rule p) ->
  0 <= stride -> 0 <= sz -> 0 <= skip -> skip + sz <= p_sz p -> 0 <= skip2 -> skip2 + sz <= p_sz q ->
  insertParam sz p buf stride skip = Some buf' ->
  exists q', extractParam sz buf' 0 q stride skip2 = Some q' /\
  forall i m e s n v, 0 <= i < sz -> lookup m (translate (p_rule p)) = Some e -> e_type e = MFloat ->
    decimals_fit p (i + skip) (e_scal e) s -> getPrm (i + skip) m p = Some (VF v) -> decimal n v -> fits n s ->
    let s' := rd16 buf' ((240 + stride) * i + (e_scal e - 1)) in
    ok_scale s' /\ s <= s' /\ fits n s' /\ exists out, getPrm (i + skip2) m q' = Some (VF out) /\ decimal n out.
Proof.
  intros p q sz buf buf' stride skip skip2 Hp Hq R (F & OK) Hs Hz Hk Hle Hk2 Hle2 H.
  destruct (insert_extract _ _ _ _ _ _ q skip2 Hp Hq R F OK Hs Hz Hk Hle Hk2 Hle2 H) as (q' & E & _ & _ & _ & A).
  exists q'. split; [exact E|]. intros i m e s n v Hi L T (SO & W) G Dv FT. specialize (A i m e Hi L). rewrite T in A.
  destruct A as (cs & N & A1 & A2 & A3 & A4). apply all_some_map in A1.
  assert (CS : Forall (fun c => ok_scale c /\ s <= c) cs).
  { apply Forall_forall. intros c Is.
    assert (X : In (Some c) (cands p (i + skip) (e_scal e) (map snd (translate (p_rule p))))) by (rewrite A1; apply in_map; exact Is).
    unfold cands in X. apply in_map_iff in X. destruct X as (e0 & X & I). apply filter_In in I. destruct I as (I & B).
    apply in_map_iff in I. destruct I as ((m0 & e1) & <- & I). cbn [snd] in *. destruct Hp as ((ND & Hp1) & Hp2).
    apply (in_lookup _ _ _ ND) in I. apply andb_true_iff in B. destruct B as (B1 & B2). apply Z.eqb_eq in B2.
    assert (B3 : e_type e1 = MFloat) by (destruct (mdtype_eqb_spec (e_type e1) MFloat); [assumption|discriminate]).
    destruct (W m0 e1 I B3 B2) as (n0 & v0 & G0 & D0 & F0).
    rewrite (val_of_some p (i + skip) m0 e1) in X by (assumption || (split; [split; assumption|assumption]) || congruence || lia).
    rewrite (getPrm_at p (i + skip) m0 e1) in G0 by (assumption || (split; [split; assumption|assumption]) || congruence || lia).
    injection G0 as G0. rewrite G0 in X. cbn [obind dbl_of] in X.
    pose proof (fits_sc n0 s SO F0) as LE. rewrite (find_scalar_dec n0 v0 (fits_coarser n0 s (sc n0) SO (sc_ok n0) LE (Z.le_refl _) F0) D0) in X.
    injection X as <-. split; [apply sc_ok|exact LE]. }
  destruct (combine_ok cs 1 ltac:(left; reflexivity)) as (C1 & C2 & C3); [apply (Forall_impl _ (fun c K => proj1 K) CS)|].
  set (f := fold_left combine cs 1) in *.
  assert (SF : s <= f).
  { assert (K : forall l a, ok_scale a -> s <= a -> Forall (fun c => ok_scale c /\ s <= c) l -> s <= fold_left combine l a).
    { induction l as [|c l IH]; intros a Ha Hsa Hl; [exact Hsa|]. inversion Hl as [|? ? (K1 & K2) Hl']; subst. cbn [fold_left].
      assert (combine a c = Z.min a c) as Kc by (unfold combine; replace ((1 <? a) || (1 <? c)) with false; [reflexivity|unfold ok_scale in *; lia]).
      apply IH; [rewrite Kc; unfold ok_scale in *; lia|rewrite Kc; lia|exact Hl']. }
    apply K; [left; reflexivity|unfold ok_scale in SO; lia|exact CS]. }
  assert (S16 : s16 f = f) by (apply s16_id; unfold in_s16; unfold ok_scale in C1; lia).
  assert (FN : f <= sc n).
  { (* the coordinate itself is among those that share the scale *)
    rewrite Forall_forall in C3. apply C3. pose proof Hp as Hp'. destruct Hp' as ((ND & Hp1) & Hp2).
    assert (X : In (find_scalar v) (cands p (i + skip) (e_scal e) (map snd (translate (p_rule p))))).
    { unfold cands. apply in_map_iff. exists e. split.
      - rewrite (val_of_some p (i + skip) m e) by (assumption || congruence || lia). rewrite (getPrm_at p (i + skip) m e Hp L) in G by (congruence || lia). rewrite T in G. injection G as G. rewrite T, G. reflexivity.
      - apply filter_In. split; [apply in_map_iff; exists (m, e); split; [reflexivity|apply lookup_in; exact L]|]. rewrite T, Z.eqb_refl. reflexivity. }
    pose proof (fits_sc n s SO FT) as LE. rewrite (find_scalar_dec n v (fits_coarser n s (sc n) SO (sc_ok n) LE (Z.le_refl _) FT) Dv) in X.
    rewrite A1 in X. apply in_map_iff in X. destruct X as (y & Y & Iy). injection Y as <-. exact Iy. }
  pose proof (fits_coarser n s f SO C1 SF FN FT) as FF. cbv zeta. rewrite A3, S16. split; [exact C1|]. split; [exact SF|]. split; [exact FF|].
  destruct FF as (N0 & E0 & H0). rewrite (getPrm_at p (i + skip) m e Hp L) in G by (congruence || lia). rewrite T in G. injection G as G. rewrite G in A2. cbn [dbl_of] in A2.
  rewrite (div_scale n v f N0 Dv C1 E0 H0) in A2. injection A2 as <-. rewrite A4, S16, (s32_id N0 H0). eexists. split; [reflexivity|]. apply (read_back n f N0 C1 E0 H0).
Qed.

(** C35 (part): a coordinate with at most four decimals comes back as the same decimal,
    and as exactly the same number if it is a multiple of a sixteenth, provided the
    coordinates of the trace that share its scale factor all have at most four decimals
    and all fit 32 bits at some scale.  The result again meets the condition, so any
    number of further rewrites keeps the decimal. *)
Theorem C35_decimals_partial :
  forall p q sz buf buf' stride skip skip2,
  held p -> held q -> p_rule q = p_rule p -> usable (p_rule p) ->
  0 <= stride -> 0 <= sz -> 0 <= skip -> skip + sz <= p_sz p -> 0 <= skip2 -> skip2 + sz <= p_sz q ->
  insertParam sz p buf stride skip = Some buf' ->
  exists q', extractParam sz buf' 0 q stride skip2 = Some q' /\
  forall i b s, 0 <= i < sz -> decimals_fit p (i + skip) b s ->
    decimals_fit q' (i + skip2) b s /\
    forall m e n v, lookup m (translate (p_rule p)) = Some e -> e_type e = MFloat -> e_scal e = b ->
      getPrm (i + skip) m p = Some (VF v) -> decimal n v -> fits n s ->
      exists out, getPrm (i + skip2) m q' = Some (VF out) /\ decimal n out /\ (Z.rem n 625 = 0 -> B2R out = B2R v).
Proof.
  intros p q sz buf buf' stride skip skip2 Hp Hq R U Hs Hz Hk Hle Hk2 Hle2 H.
  destruct (decimals_wf p q sz buf buf' stride skip skip2 (held_wf _ Hp) (held_wf _ Hq) R U Hs Hz Hk Hle Hk2 Hle2 H) as (q' & E & A).
  exists q'. split; [exact E|]. intros i b s Hi W.
  assert (B : forall m e n v, lookup m (translate (p_rule p)) = Some e -> e_type e = MFloat -> e_scal e = b ->
      getPrm (i + skip) m p = Some (VF v) -> decimal n v -> fits n s ->
      exists out, getPrm (i + skip2) m q' = Some (VF out) /\ decimal n out /\ (Z.rem n 625 = 0 -> B2R out = B2R v)).
  { intros m e n v L T <- G Dv FT. destruct (A i m e s n v Hi L T W G Dv FT) as (_ & _ & _ & out & O1 & O2). exists out. split; [exact O1|]. split; [exact O2|].
    intros Z0. destruct O2 as (_ & _ & O2). destruct Dv as (_ & _ & Dv). rewrite (O2 Z0), (Dv Z0). reflexivity. }
  split; [|exact B]. destruct W as (SO & W). split; [exact SO|]. intros m e L T Sb.
  assert (RQ : p_rule q' = p_rule p).
  { destruct U as (F & OK). destruct (insert_extract _ _ _ _ _ _ q skip2 (held_wf _ Hp) (held_wf _ Hq) R F OK Hs Hz Hk Hle Hk2 Hle2 H) as (q2 & E2 & _ & R2 & _). rewrite E in E2. injection E2 as <-. congruence. }
  rewrite RQ in L. destruct (W m e L T Sb) as (n & v & G & Dv & FT). destruct (B m e n v L T Sb G Dv FT) as (out & O1 & O2 & _). eauto.
Qed.
Print Assumptions C35_decimals_partial.

(** C36 (part): under the same condition no coordinate is lost to the shared scale: the
    scale stored is no finer than one at which all fit, so the coordinate's integer fits
    and what comes back is within 2^-50 of the coordinate. *)
Theorem C36_common_scale_partial :
  forall p q sz buf buf' stride skip skip2,
  held p -> held q -> p_rule q = p_rule p -> usable (p_rule p) ->
  0 <= stride -> 0 <= sz -> 0 <= skip -> skip + sz <= p_sz p -> 0 <= skip2 -> skip2 + sz <= p_sz q ->
  insertParam sz p buf stride skip = Some buf' ->
  exists q', extractParam sz buf' 0 q stride skip2 = Some q' /\
  forall i m e s n v, 0 <= i < sz -> lookup m (translate (p_rule p)) = Some e -> e_type e = MFloat ->
    decimals_fit p (i + skip) (e_scal e) s -> getPrm (i + skip) m p = Some (VF v) -> decimal n v -> fits n s ->
    let s' := rd16 buf' ((240 + stride) * i + (e_scal e - 1)) in
    ok_scale s' /\ s <= s' /\ fits n s' /\
    exists out, getPrm (i + skip2) m q' = Some (VF out) /\ (Rabs (B2R out - B2R v) <= / 1125899906842624 * Rabs (IZR n / 10000))%R.
Proof.
  intros p q sz buf buf' stride skip skip2 Hp Hq R U Hs Hz Hk Hle Hk2 Hle2 H.
  destruct (decimals_wf p q sz buf buf' stride skip skip2 (held_wf _ Hp) (held_wf _ Hq) R U Hs Hz Hk Hle Hk2 Hle2 H) as (q' & E & A).
  exists q'. split; [exact E|]. intros i m e s n v Hi L T W G Dv FT. destruct (A i m e s n v Hi L T W G Dv FT) as (A1 & A2 & A3 & out & O1 & O2).
  cbv zeta. split; [exact A1|]. split; [exact A2|]. split; [exact A3|]. exists out. split; [exact O1|].
  destruct O2 as (_ & O2 & _). destruct Dv as (_ & Dv & _). replace (B2R out - B2R v)%R with ((B2R out - IZR n / 10000) + - (B2R v - IZR n / 10000))%R by ring.
  eapply Rle_trans; [apply Rabs_triang|]. rewrite Rabs_Ropp. pose proof (Rabs_pos (IZR n / 10000)). lra.
Qed.
Print Assumptions C36_common_scale_partial.

(** 0.3 is three thousand ten-thousandths, 612345.67 and a whole number fit with it at
    the scale 1/100; what is stored and what comes back. *)
Definition d612345_67 : D := d_bin 5260009252994417 (-33).
Lemma d0_3_decimal : decimal 3000 d0_3.
Proof.
  assert (S : B2SF d0_3 = SpecFloat.S754_finite false 5404319552844595 (-54)) by (vm_compute; reflexivity).
  assert (V : B2R d0_3 = (IZR 5404319552844595 * bpow radix2 (-54))%R) by (rewrite <- SF2R_B2SF, S; reflexivity).
  split; [rewrite <- is_finite_SF_B2SF, S; reflexivity|]. rewrite V. change (bpow radix2 (-54)) with (/ 18014398509481984)%R. split; [|intros X; vm_compute in X; discriminate].
  rewrite (Rabs_pos_eq (3000 / 10000)) by lra. apply Rabs_le. lra.
Qed.
Lemma d612345_67_decimal : decimal 6123456700 d612345_67.
Proof.
  assert (S : B2SF d612345_67 = SpecFloat.S754_finite false 5260009252994417 (-33)) by (vm_compute; reflexivity).
  assert (V : B2R d612345_67 = (IZR 5260009252994417 * bpow radix2 (-33))%R) by (rewrite <- SF2R_B2SF, S; reflexivity).
  split; [rewrite <- is_finite_SF_B2SF, S; reflexivity|]. rewrite V. change (bpow radix2 (-33)) with (/ 8589934592)%R. split; [|intros X; vm_compute in X; discriminate].
  rewrite (Rabs_pos_eq (6123456700 / 10000)) by lra. apply Rabs_le. lra.
Qed.
Example C35_decimals_nonvacuous :
  let p := newParam (newRule [20; 21] true false false) 1 in
  held p /\ usable (p_rule p) /\ exists p1 p2 b, setPrm 0 20 (VF d0_3) p = Some p1 /\ setPrm 0 21 (VF d612345_67) p1 = Some p2 /\
  insertParam 1 p2 (fun _ => 0) 0 0 = Some b /\ rd16 b 70 = -100 /\ rd32 b 72 = 30 /\ rd32 b 76 = 61234567 /\ fits 3000 (-100) /\ fits 6123456700 (-100).
Proof.
  set (p := newParam (newRule [20; 21] true false false) 1). cbv zeta.
  assert (H : obind (setPrm 0 20 (VF d0_3) p) (fun p1 => obind (setPrm 0 21 (VF d612345_67) p1) (fun p2 => obind (insertParam 1 p2 (fun _ => 0) 0 0) (fun b =>
    Some (rd16 b 70, rd32 b 72, rd32 b 76)))) = Some (-100, 30, 61234567)) by (vm_compute; reflexivity).
  chain H. injection H as H1 H2 H3.
  split; [apply held_new; [apply reach_new|lia]|]. split; [apply predefined_usable, pre_new|].
  exists p0, p1, m. split; [reflexivity|]. repeat (split; [assumption|]). split; [exists 30; split; [reflexivity|unfold in_s32; lia]|exists 61234567; split; [reflexivity|unfold in_s32; lia]].
Qed.
Example C36_decimals_nonvacuous : exists p e, held p /\ usable (p_rule p) /\ lookup 20 (translate (p_rule p)) = Some e /\ e_type e = MFloat /\
  getPrm 0 20 p = Some (VF d0_3) /\ getPrm 0 21 p = Some (VF d612345_67) /\ decimals_fit p 0 (e_scal e) (-100).
Proof.
  set (p := newParam (newRule [20; 21] true false false) 1). assert (Hp : held p) by (apply held_new; [apply reach_new|lia]). assert (Up : usable (p_rule p)) by apply predefined_usable, pre_new.
  destruct (C29_set_get p 0 20 (VF d0_3) (mkEntry MFloat 0 73 71) Hp) as (p1 & S1 & G1 & R1 & Z1 & K1); [reflexivity|cbn; lia|exact I|].
  assert (H1 : held p1) by (eapply held_set; eassumption).
  destruct (C29_set_get p1 0 21 (VF d612345_67) (mkEntry MFloat 1 77 71) H1) as (p2 & S2 & G2 & R2 & Z2 & K2); [rewrite R1; reflexivity|rewrite Z1; cbn; lia|exact I|].
  assert (H2 : held p2) by (eapply held_set; eassumption). assert (G0 : getPrm 0 20 p2 = Some (VF d0_3)) by (rewrite K2; [exact G1|rewrite Z1; cbn; lia|congruence]).
  exists p2, (mkEntry MFloat 0 73 71). rewrite R2, R1. split; [exact H2|]. split; [exact Up|]. split; [reflexivity|]. split; [reflexivity|]. split; [exact G0|]. split; [exact G2|].
  split; [unfold ok_scale; tauto|]. intros m e L T B. rewrite R2, R1 in L. apply lookup_in in L. vm_compute in L.
  repeat (destruct L as [L|L]; [injection L as <- <-; cbn in T, B|]); try contradiction; try discriminate; try lia.
  - exists 6123456700, d612345_67. split; [exact G2|]. split; [apply d612345_67_decimal|]. exists 61234567. split; [reflexivity|unfold in_s32; lia].
  - exists 3000, d0_3. split; [exact G0|]. split; [apply d0_3_decimal|]. exists 30. split; [reflexivity|unfold in_s32; lia].
Qed.
