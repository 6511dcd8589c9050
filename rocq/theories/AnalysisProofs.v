(** Lemmas about the program that describes a trace. *)
From Coq Require Import Reals Lra.
From Flocq Require Import Core IEEE754.BinarySingleNaN.
From Verif Require Import Base DecompModel DecompSpec DecompProofs NumEncModel NumEncSpec NumEncProofs CharEncModel CharEncProofs LayoutModel LayoutProofs DataIOModel DataIOProofs
  RuleModel RuleProofs DoubleModel ParamModel ParamProofs HeaderProofs ScalarProofs FileSpec FileModel FileProofs WriteSpec WriteProofs RuleProperties ParamProperties ReadProofs OpenProofs FileProperties TraceProperties.
From Verif Require Import SortSpec SortModel SortProofs CompProofs FlowModel FlowProofs CopySpec CopyProofs ExampleModel ExampleProofs SetFileModel SetFileSpec SetFileProofs SetSortSpec SetSortProofs VerifyModel VerifyProofs AnalysisModel.
Import ListNotations.
Open Scope Z_scope.

Definition pairs6 : list (Z * Z) := [(20, 73); (21, 77); (22, 81); (23, 85); (24, 181); (25, 185)].
Lemma six_float m l : In (m, l) pairs6 -> exists e, lookup m (translate default_rule) = Some e /\ e_type e = MFloat /\ e_loc e = l /\ e_scal e = 71.
Proof. intros [E|[E|[E|[E|[E|[E|[]]]]]]]; injection E as <- <-; (eexists; split; [vm_compute; reflexivity|repeat split; reflexivity]). Qed.
Definition pairs2 : list (Z * Z) := [(26, 189); (27, 193)].
Lemma two_long m l : In (m, l) pairs2 -> exists e, lookup m (translate default_rule) = Some e /\ e_type e = MLong /\ e_loc e = l.
Proof. intros [E|[E|[]]]; injection E as <- <-; (eexists; split; [vm_compute; reflexivity|split; reflexivity]). Qed.

(** Reading n traces, none or one, into a set for one. *)
Lemma one_read maxSize rd f (RB : readable maxSize rd f) sizes tn n : 0 <= tn -> 0 <= n <= 1 -> tn + n <= r_nt rd -> clamp (r_nt rd) tn 1 = n ->
  exists p', readTrace maxSize sizes rd tn 1 None (Some (newParam default_rule 1)) 0 f = Some (None, Some p') /\
  (n = 1 -> (forall m l, In (m, l) pairs6 -> getPrm 0 m p' = Some (VF (read_coordinate (disk_header f (r_ns rd) tn) l))) /\
            (forall m l, In (m, l) pairs2 -> getPrm 0 m p' = Some (VI (int32_at (disk_header f (r_ns rd) tn) l)))) /\
  (n = 0 -> forall m e, lookup m (translate default_rule) = Some e -> getPrm 0 m p' = getPrm 0 m (newParam default_rule 1)).
Proof.
  destruct RB as [M F HT FM HB SB]. intros O N L CL. set (ns := r_ns rd) in *. set (nt := r_nt rd) in *.
  unfold readTrace. fold nt ns. rewrite CL. destruct default_usable as (FR & FO).
  destruct (read_spec maxSize sizes (r_format rd) ns nt (Range tn n) None (Some (newParam default_rule 1)) 0 f M F) as (trc' & prm' & E & A & _ & _ & B); try assumption.
  { unfold tvalid. cbn. lia. }
  { cbn [tcount tpos]. intros i j I J. apply SB; [lia|exact J]. }
  { right; discriminate. }
  { intros q Q. injection Q as <-. split; [apply newParam_wf; [apply default_good|lia]|]. split; [exact FR|]. split; [exact FO|]. split; [exact default_label|]. cbn. lia. }
  destruct (B _ eq_refl) as (p' & -> & B1 & B2 & B3 & B4 & B5 & B6 & _). rewrite (A eq_refl) in E. cbn [tcount tpos p_rule p_sz newParam] in *.
  exists p'. split; [exact E|]. clear E. split.
  - intros ->. split.
    + intros m l I. destruct (six_float m l I) as (e & LK & T & EL & ES). pose proof (B4 0 m e (VF (read_coordinate (disk_header f ns (tn + 0)) l)) ltac:(lia) LK) as H. rewrite !Z.add_0_r in H. apply H.
      unfold decode. rewrite T, EL, ES. rewrite !Z.add_0_l, !Z.sub_0_r. unfold read_coordinate. rewrite int16_rd by (apply HB; lia). rewrite int32_rd; [reflexivity|]. intros k K. apply HB; [lia|].
      destruct I as [I|[I|[I|[I|[I|[I|[]]]]]]]; injection I as <- <-; lia.
    + intros m l I. destruct (two_long m l I) as (e & LK & T & EL). pose proof (B4 0 m e (VI (int32_at (disk_header f ns (tn + 0)) l)) ltac:(lia) LK) as H. rewrite !Z.add_0_r in H. apply H.
      unfold decode. rewrite T, EL. rewrite !Z.add_0_l, !Z.sub_0_r. rewrite int32_rd; [reflexivity|]. intros k K. apply HB; [lia|]. destruct I as [I|[I|[]]]; injection I as <- <-; lia.
  - intros -> m e LK. apply (B6 0 m e); [lia|right; lia|exact LK].
Qed.

Lemma analyse_inside maxSize rd f (RB : readable maxSize rd f) sizes tn : 0 <= tn < r_nt rd ->
  let h := disk_header f (r_ns rd) tn in
  analyse maxSize sizes rd f tn = Some (mkReport (read_coordinate h 73) (read_coordinate h 77) (read_coordinate h 81) (read_coordinate h 85) (read_coordinate h 181) (read_coordinate h 185) (u64 (int32_at h 189)) (u64 (int32_at h 193))).
Proof.
  intros T h. pose proof (rb_fits _ _ _ RB) as (NS & NT & S64 & _).
  assert (NTS : r_nt rd < two64). { assert (r_nt rd * 240 <= r_nt rd * (240 + 4 * r_ns rd)) by (apply Z.mul_le_mono_nonneg_l; lia). lia. }
  assert (CL : clamp (r_nt rd) tn 1 = 1). { unfold clamp. cbn [Z.eqb]. rewrite u64_small by (unfold in_u64; lia). replace (r_nt rd <? tn + 1) with false by lia. reflexivity. }
  destruct (one_read maxSize rd f RB sizes tn 1 ltac:(lia) ltac:(lia) ltac:(lia) CL) as (p' & E & A & _). destruct (A eq_refl) as (RF & RI). fold h in RF, RI. clear A.
  unfold analyse. rewrite E. cbn [obind].
  rewrite (RF 20 73) by (cbn; tauto). cbn [obind asD]. rewrite (RF 21 77) by (cbn; tauto). cbn [obind asD]. rewrite (RF 22 81) by (cbn; tauto). cbn [obind asD]. rewrite (RF 23 85) by (cbn; tauto). cbn [obind asD].
  rewrite (RF 24 181) by (cbn; tauto). cbn [obind asD]. rewrite (RF 25 185) by (cbn; tauto). cbn [obind asD]. rewrite (RI 26 189) by (cbn; tauto). cbn [obind asU]. rewrite (RI 27 193) by (cbn; tauto). cbn [obind asU]. reflexivity.
Qed.

Lemma fresh_float m l : In (m, l) pairs6 -> getPrm 0 m (newParam default_rule 1) = Some (VF (B754_zero false)).
Proof. intros [E|[E|[E|[E|[E|[E|[]]]]]]]; injection E as <- <-; vm_compute; reflexivity. Qed.
Lemma fresh_long m l : In (m, l) pairs2 -> getPrm 0 m (newParam default_rule 1) = Some (VI 0).
Proof. intros [E|[E|[]]]; injection E as <- <-; vm_compute; reflexivity. Qed.
Definition nothing : report := mkReport (B754_zero false) (B754_zero false) (B754_zero false) (B754_zero false) (B754_zero false) (B754_zero false) 0 0.
Lemma analyse_end maxSize rd f (RB : readable maxSize rd f) sizes : analyse maxSize sizes rd f (r_nt rd) = Some nothing.
Proof.
  pose proof (rb_fits _ _ _ RB) as (NS & NT & S64 & _).
  assert (NTS : r_nt rd < two64 - 1). { assert (r_nt rd * 240 <= r_nt rd * (240 + 4 * r_ns rd)) by (apply Z.mul_le_mono_nonneg_l; lia). unfold two64 in *. lia. }
  assert (CL : clamp (r_nt rd) (r_nt rd) 1 = 0). { unfold clamp. cbn [Z.eqb]. rewrite u64_small by (unfold in_u64; lia). replace (r_nt rd <? r_nt rd + 1) with true by lia. rewrite Z.sub_diag. reflexivity. }
  destruct (one_read maxSize rd f RB sizes (r_nt rd) 0 ltac:(lia) ltac:(lia) ltac:(lia) CL) as (p' & E & _ & A).
  assert (RF : forall m l, In (m, l) pairs6 -> getPrm 0 m p' = Some (VF (B754_zero false))) by (intros m l I; destruct (six_float m l I) as (e & LK & _); rewrite (A eq_refl m e LK); apply (fresh_float m l I)).
  assert (RI : forall m l, In (m, l) pairs2 -> getPrm 0 m p' = Some (VI 0)) by (intros m l I; destruct (two_long m l I) as (e & LK & _); rewrite (A eq_refl m e LK); apply (fresh_long m l I)).
  unfold analyse. rewrite E. cbn [obind].
  rewrite (RF 20 73) by (cbn; tauto). cbn [obind asD]. rewrite (RF 21 77) by (cbn; tauto). cbn [obind asD]. rewrite (RF 22 81) by (cbn; tauto). cbn [obind asD]. rewrite (RF 23 85) by (cbn; tauto). cbn [obind asD].
  rewrite (RF 24 181) by (cbn; tauto). cbn [obind asD]. rewrite (RF 25 185) by (cbn; tauto). cbn [obind asD]. rewrite (RI 26 189) by (cbn; tauto). cbn [obind asU]. rewrite (RI 27 193) by (cbn; tauto). cbn [obind asU]. reflexivity.
Qed.
