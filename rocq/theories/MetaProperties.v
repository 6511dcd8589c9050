(** Property C78: metadata written and read back. *)
From Coq Require Import Reals Lra Permutation Sorted.
From Flocq Require Import Core IEEE754.BinarySingleNaN.
From Verif Require Import Base NumEncModel NumEncSpec NumEncProofs CharEncModel LayoutModel LayoutProofs DataIOModel DataIOProofs
  RuleModel RuleProofs DoubleModel ParamModel ParamProofs HeaderProofs ScalarProofs FileSpec FileModel FileProofs WriteSpec WriteProofs ParamProperties ReadProofs OpenProofs FileProperties.
Open Scope Z_scope.
From Verif Require Import TraceProperties.

(** ---- C78: metadata written are the metadata read ---- *)
(** A reader that asks for metadata with the rule they were written with gets, for
    every trace, the last metadata any rank wrote there: integers exactly (when
    they fit their field), coordinates to within half a unit of the scale stored
    in the trace header, whole-number coordinates exactly. *)
Theorem C78_metadata_round_trip :
  forall maxSize p h f0 f' nt ns maxSize' sizes rd t trc q skip,
  written_file maxSize p h f0 f' nt ns -> (forall x, In x h -> md_ok (snd x)) -> 3600 <= maxSize' -> 2 * (240 + 4 * ns) <= maxSize' ->
  open_file maxSize' sizes f' = Some rd ->
  tvalid (r_nt rd) t -> readable t skip (Some q) ->
  exists trc' q', readTraceT maxSize' sizes (r_format rd) (r_ns rd) t trc (Some q) skip f' = Some (trc', Some q') /\
  forall j src tr, 0 <= j < tcount t -> last_md h (tpos t j) = Some (src, tr) -> p_rule src = p_rule q ->
  forall m e, lookup m (translate (p_rule q)) = Some e ->
    (forall z, (e_type e = MLong /\ in_s32 z \/ e_type e = MShort /\ in_s16 z) ->
       getPrm tr m src = Some (VI z) -> getPrm (j + skip) m q' = Some (VI z)) /\
    (forall v, e_type e = MFloat -> getPrm tr m src = Some (VF v) -> is_finite v = true ->
       let g := parse_scalar (rd16 (disk_header f' ns (tpos t j)) (e_scal e - 1)) in
       exists n, dlround (ddiv v g) = Some n /\
       (in_s32 n -> exists out, getPrm (j + skip) m q' = Some (VF out) /\ is_finite out = true /\
          (Rabs (B2R out - B2R v) <= B2R g / 2 + / 2251799813685248 * (Rabs (B2R v) + B2R g))%R)) /\
    (e_type e = MFloat ->
       (forall m' e', lookup m' (translate (p_rule q)) = Some e' -> e_type e' = MFloat -> e_scal e' = e_scal e ->
          exists z, in_s32 z /\ getPrm tr m' src = Some (VF (d_of_Z z))) ->
       getPrm (j + skip) m q' = getPrm tr m src).
Proof.
  intros maxSize p h f0 f' nt ns maxSize' sizes rd t trc q skip W MD M M2 O V HP.
  destruct (C40_header_round_trip_partial _ _ _ _ _ _ _ maxSize' sizes W M) as (rd' & O' & E1 & E2 & E3 & _).
  rewrite O in O'. injection O' as <-. rewrite E1, E2, E3 in *.
  destruct (life_samples _ _ _ _ _ _ _ W) as (_ & _ & L3 & L4 & HT).
  destruct (life _ _ _ _ _ _ _ W) as (f & hd & k & RUN & FA & _).
  destruct (HP q eq_refl) as (H1 & (H2 & H3) & H4 & H5 & H6).
  destruct (read_spec maxSize' sizes 5 ns _ t trc (Some q) skip f' M2 FA V HT) as (trc' & prm' & R & _ & _ & _ & A).
  - intros i j I J. apply L3; [apply (tpos_range _ t i V I)|exact J].
  - discriminate.
  - right. discriminate.
  - intros q0 Q. injection Q as <-. split; [apply held_wf; exact H1|]. repeat (split; [assumption|]). assumption.
  - destruct (A q eq_refl) as (q' & -> & _ & _ & _ & D & _). exists trc', q'. split; [exact R|].
    intros j src tr J L RR m e LK. destruct (L4 _ _ _ L MD) as (_ & st & sz & sk & j' & buf & Q1 & Q2 & Q3 & Q4 & Q5 & Q6 & Q7 & Q8 & Q9 & Q10).
    set (q0 := newParam (p_rule src) sz). assert (W0 : wf_param q0) by (apply newParam_wf; [apply Q6|lia]).
    assert (R0 : p_rule q0 = p_rule src) by reflexivity. assert (S0 : p_sz q0 = sz) by reflexivity.
    rewrite <- RR in LK. pose proof (ReadProofs.lookup_in _ _ _ LK) as IE.
    assert (DD : decode (disk_header f' ns (tpos t j)) 0 0 e = decode buf 0 ((240 + st) * j') e).
    { rewrite (decode_ext (p_rule src) (disk_header f' ns (tpos t j)) (fun x => buf (x + (240 + st) * j')) 0 e m Q8 IE).
      - rewrite decode_shift. reflexivity.
      - intros x X. rewrite Q10 by lia. f_equal. lia. }
    destruct (extract_spec sz buf 0 q0 st 0 W0) as (q2 & X1 & X2 & X3 & X4 & _ & X6 & _ & _); [exact Q7|lia|lia|lia|].
    assert (SAME : (e_type e = MLong \/ e_type e = MShort \/ e_type e = MFloat) -> getPrm (j + skip) m q' = getPrm (j' + 0) m q2).
    { intros T. assert (DV : exists v, decode buf 0 ((240 + st) * j') e = Some v) by (unfold decode; destruct T as [T|[T|T]]; rewrite T; eauto).
      destruct DV as (v & DV). rewrite (D j m e v J) by (first [rewrite <- RR; exact LK|rewrite DD; exact DV]).
      rewrite (getPrm_at q2 (j' + 0) m e X2) by (first [rewrite X3; exact LK|destruct T as [T|[T|T]]; congruence|lia]).
      f_equal. rewrite X3. symmetry. apply (X6 j' m e v); [lia|exact IE|exact DV]. }
    split; [|split].
    + intros z T G. rewrite SAME by tauto.
      destruct (integer_wf src q0 sz (fun _ => 0) buf st sk 0 Q6 W0 R0 (conj Q7 Q8) Q1 ltac:(lia) Q3 Q4 ltac:(lia) ltac:(lia) Q9) as (q3 & Y1 & Y2).
      assert (q3 = q2) as -> by congruence. rewrite <- Q5 in G. apply (Y2 j' m e z); assumption.
    + intros v T G FV. cbv zeta.
      destruct (coordinate_wf src q0 sz (fun _ => 0) buf st sk 0 Q6 W0 R0 (conj Q7 Q8) Q1 ltac:(lia) Q3 Q4 ltac:(lia) ltac:(lia) Q9) as (q3 & Y1 & Y2).
      assert (q3 = q2) as -> by congruence. rewrite <- Q5 in G. specialize (Y2 j' m e v Q2 LK T G FV). cbv zeta in Y2.
      assert (RD : rd16 (disk_header f' ns (tpos t j)) (e_scal e - 1) = rd16 buf ((240 + st) * j' + (e_scal e - 1))).
      { destruct (Q8 m e (e_scal e, 2) IE) as (B1 & B2 & _); [unfold efields; rewrite T; right; left; reflexivity|]. cbn [fst snd] in *.
        unfold rd16. rewrite !Q10 by lia. f_equal. f_equal. lia. }
      rewrite RD. destruct Y2 as (n & N1 & N2). exists n. split; [exact N1|]. intros IN. destruct (N2 IN) as (out & O1 & O2). exists out. split; [|exact O2].
      rewrite SAME by tauto. exact O1.
    + intros T WH. rewrite SAME by tauto.
      destruct (whole_wf src q0 sz (fun _ => 0) buf st sk 0 Q6 W0 R0 (conj Q7 Q8) Q1 ltac:(lia) Q3 Q4 ltac:(lia) ltac:(lia) Q9) as (q3 & Y1 & Y2).
      assert (q3 = q2) as -> by congruence. rewrite <- Q5 in *. apply (Y2 j' m e); try assumption. intros m' e' LE. apply WH. rewrite <- RR. exact LE.
Qed.
Print Assumptions C78_metadata_round_trip.
(** The conditions on metadata are those of a set filled through the API. *)
Lemma md_held sizes t trc p skip : held p -> usable (p_rule p) -> 0 <= skip -> skip + tcount t <= p_sz p -> md_ok (WTrace sizes t trc (Some p) skip).
Proof. intros H (A & B) K S. split; [apply held_wf; exact H|]. auto. Qed.
Example C78_nonvacuous : md_ok (WTrace [] (Listed [0; 2]) (Some (demo_mem 1)) (Some (newParam demo_rule 4)) 1) /\
  last_md [(0%nat, WTrace [] (Listed [0; 2]) (Some (demo_mem 1)) (Some (newParam demo_rule 4)) 1)] 2 = Some (newParam demo_rule 4, 2) /\
  (exists x, writeTraceT 4000 [] 2 (Listed [0; 2]) (Some (demo_mem 1)) (Some (newParam demo_rule 4)) 1 empty_file = Some x).
Proof.
  split; [destruct (demo_param 4 ltac:(lia)) as (A & B & C); apply md_held; [exact A|exact B|lia|]; cbn [tcount length]; change (p_sz (newParam demo_rule 4)) with 4; lia|].
  split; [reflexivity|]. assert (X : match writeTraceT 4000 [] 2 (Listed [0; 2]) (Some (demo_mem 1)) (Some (newParam demo_rule 4)) 1 empty_file with Some _ => true | None => false end = true) by (vm_compute; reflexivity).
  destruct (writeTraceT _ _ _ _ _ _ _ _); [eauto|discriminate].
Qed.

