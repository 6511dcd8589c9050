(** Lemmas about the calls of a set and the file they leave. *)
From Coq Require Import Reals Lra Permutation Sorted.
From Flocq Require Import Core IEEE754.BinarySingleNaN.
From Verif Require Import Base DecompModel DecompSpec DecompProofs NumEncModel NumEncSpec NumEncProofs CharEncModel CharEncProofs LayoutModel LayoutProofs DataIOModel DataIOProofs
  RuleModel RuleProofs DoubleModel ParamModel ParamProofs HeaderProofs ScalarProofs FileSpec FileModel FileProofs WriteSpec WriteProofs ParamProperties ReadProofs OpenProofs FileProperties TraceProperties.
From Verif Require Import SortSpec SortModel FlowModel FlowProofs CopySpec CopyProofs ExampleModel ExampleProofs SetFileModel SetFileSpec.
Import ListNotations.
Open Scope Z_scope.

(** ---- copying blocks of parameters ---- *)
Lemma cpy_copies src dst j k dst' : wf_param src -> wf_param dst -> p_rule dst = p_rule src -> counts (p_rule src) MCopy <> 0 -> full_rule (p_rule src) ->
  0 <= j < p_sz src -> 0 <= k < p_sz dst -> cpyPrm true j src k dst = Some dst' ->
  forall i x, i <> k -> 0 <= x < 240 -> p_at dst' MCopy (i * 240 + x) = p_at dst MCopy (i * 240 + x).
Proof.
  intros Hs Hd R NC F Hj Hk E i x NE X. unfold cpyPrm in E. destruct (Z.eqb_spec (counts (p_rule src) MCopy) 0); [contradiction|].
  destruct (extract_spec 1 (fun a => int_of (p_at src MCopy a)) (j * 240) dst 0 k Hd) as (d1 & E1 & W1 & R1 & S1 & L1 & _ & _ & U1); [rewrite R; exact F|lia|lia|lia|].
  rewrite E1 in E. cbn [obind] in E.
  assert (LEN : forall t, In t kinds4 -> p_len d1 t = p_sz d1 * counts (p_rule src) t).
  { intros t I. destruct W1 as (_ & _ & LW & _). rewrite LW, R1, R; [reflexivity|]. intros ->. repeat destruct I as [I|I]; try discriminate. destruct I. }
  assert (K4 : forall t, In t kinds4 -> t <> MCopy) by (intros t I ->; repeat destruct I as [I|I]; try discriminate; destruct I).
  destruct (copy_kinds src j k kinds4 d1 Hs K4) as (d2 & F2 & _ & _ & _ & _ & U2).
  { unfold kinds4. repeat constructor; cbn; intuition discriminate. } { exact Hj. } { lia. } { exact LEN. }
  change (fold_left (copy_kind src j k) [MFloat; MLong; MShort; MIndex] (Some d1)) with (fold_left (copy_kind src j k) kinds4 (Some d1)) in E. rewrite F2 in E. injection E as <-.
  rewrite U2 by (intros I; exfalso; apply (K4 _ I); reflexivity). apply U1.
  - intros i' k' e v _ _ D Q. injection Q as Q _. destruct (decode_copyfree _ _ _ _ _ D) as (T & _). congruence.
  - intros _ _ Q. lia.
Qed.
Lemma scatter_copies sprm : wf_param sprm -> counts (p_rule sprm) MCopy <> 0 -> full_rule (p_rule sprm) -> forall (js : list (nat * Z)) p,
  wf_param p -> p_rule p = p_rule sprm ->
  NoDup (map fst js) -> (forall x, In x js -> 0 <= snd x < p_sz sprm /\ 0 <= Z.of_nat (fst x) < p_sz p) ->
  exists p', scatter_prm sprm 0 js p = Some p' /\ wf_param p' /\ p_rule p' = p_rule p /\ p_sz p' = p_sz p /\
  (forall x m e, In x js -> lookup m (translate (p_rule p)) = Some e -> getPrm (Z.of_nat (fst x)) m p' = getPrm (snd x) m sprm) /\
  (forall x b, In x js -> 0 <= b < 240 -> int_of (p_at p' MCopy (Z.of_nat (fst x) * 240 + b)) = int_of (p_at sprm MCopy (snd x * 240 + b))) /\
  (forall i m, 0 <= i < p_sz p -> (forall x, In x js -> i <> Z.of_nat (fst x)) -> getPrm i m p' = getPrm i m p) /\
  (forall i b, (forall x, In x js -> i <> Z.of_nat (fst x)) -> 0 <= b < 240 -> p_at p' MCopy (i * 240 + b) = p_at p MCopy (i * 240 + b)).
Proof.
  intros WS NC FC. unfold scatter_prm. induction js as [|x js IH]; intros p WP RR ND B.
  - exists p. split; [reflexivity|]. split; [exact WP|]. split; [reflexivity|]. split; [reflexivity|]. split; [intros x m e []|]. split; [intros x b []|]. split; reflexivity.
  - cbn [fold_left obind]. rewrite !Z.add_0_l. inversion ND as [|? ? N1 N2]; subst. destruct (B x (or_introl eq_refl)) as (B1 & B2).
    destruct (same_rule_wf sprm p (snd x) (Z.of_nat (fst x)) WS WP RR ltac:(intros _; exact FC) B1 B2) as (p1 & E1 & R1 & S1 & A1 & C1 & U1).
    assert (W1 : wf_param p1) by (exact (shape_wf _ _ (cpyPrm_shape _ _ _ _ _ _ E1) WP)).
    pose proof (cpy_copies _ _ _ _ _ WS WP RR NC FC B1 B2 E1) as V1. specialize (C1 NC).
    destruct (IH p1 W1 ltac:(congruence) N2) as (p' & E2 & W2 & R2 & S2 & A2 & C2 & U2 & V2).
    { intros y Y. rewrite S1. apply B. right. exact Y. }
    assert (NI : forall y, In y js -> Z.of_nat (fst x) <> Z.of_nat (fst y)) by (intros y Y Q; apply N1; apply in_map_iff; exists y; split; [lia|exact Y]).
    exists p'. rewrite E1. split; [exact E2|]. split; [exact W2|]. split; [congruence|]. split; [congruence|]. split; [|split; [|split]].
    + intros y m e [<-|Y] L.
      * rewrite U2; [apply (A1 m e); rewrite <- RR; exact L|rewrite S1; exact B2|exact NI].
      * apply (A2 y m e Y). rewrite R1. exact L.
    + intros y b [<-|Y] Hb; [|apply C2; assumption]. rewrite V2 by assumption. apply C1. exact Hb.
    + intros i m I D. rewrite U2 by (first [rewrite S1; exact I|intros y Y; apply D; right; exact Y]). apply U1; [exact I|]. apply D. left. reflexivity.
    + intros i b D Hb. rewrite V2 by (try (intros y Y; apply D; right; exact Y); exact Hb). apply V1; [|exact Hb]. apply D. left. reflexivity.
Qed.

(** ---- calls that copy whole headers ---- *)
Definition copied_header (p : param) (tr : Z) (hd : mem) : Prop := forall x, 0 <= x < 240 -> int_of (p_at p MCopy (tr * 240 + x)) = hd x.
Definition call_full (src : Z -> file * Z) (ns : Z) (rl : rule) (o : wop) : Prop :=
  match o with
  | WTrace _ t (Some m) (Some p) skip => wf_param p /\ p_rule p = rl /\ 0 <= skip /\ skip + tcount t <= p_sz p /\
    forall j, 0 <= j < tcount t -> let '(f, a) := src (tpos t j) in
      (forall k, 0 <= k < ns -> sample m (j * ns + k) = disk_sample f ns a k) /\ holds p (j + skip) (disk_header f ns a) /\ copied_header p (j + skip) (disk_header f ns a)
  | WTrace _ _ _ _ _ => False
  | _ => True
  end.
Lemma full_copies src ns rl o : call_full src ns rl o -> call_copies src ns rl o.
Proof.
  destruct o as [| | | |sz t [m|] [p|] skip]; cbn [call_full call_copies]; try tauto. intros (A & B & C & D & E). repeat (split; [assumption|]). intros j J. specialize (E j J). destruct (src (tpos t j)). tauto.
Qed.
(** A header as it is written: the copied bytes, then the fields. *)
Lemma header_full sz p stride sk buf i hd : wf_param p -> usable (p_rule p) -> counts (p_rule p) MCopy <> 0 -> 0 <= stride -> 0 <= sk -> sk + sz <= p_sz p -> 0 <= i < sz ->
  insertParam sz p (fun _ => 0) stride sk = Some buf -> copied_header p (i + sk) hd -> (forall x, is_byte (hd x)) ->
  (forall x, 0 <= x < 240 -> is_byte (buf ((240 + stride) * i + x))) /\
  (forall x, 0 <= x < 240 -> (forall k e a, In (k, e) (translate (p_rule p)) -> In a (efields e) -> ~ (fst a <= x + 1 < fst a + snd a)) -> buf ((240 + stride) * i + x) = hd x).
Proof.
  intros W (F & OK) NC Hs Hk Hle Hi H CH HB. assert (Hz : 0 <= sz) by lia. destruct (insert_bytes _ _ _ _ _ _ F OK Hs Hz H) as (IB & _). destruct (IB i Hi) as (cw & ws & CW & TW & B). set (base := (240 + stride) * i) in *.
  assert (C0 : forall x, 0 <= x < 240 -> apply_writes cw (fun _ => 0) (base + x) = hd x) by (intros x X; rewrite (copy_write_byte p (i + sk) base cw _ x NC CW X); apply CH; exact X).
  split; intros x X.
  - rewrite B by lia. assert (AB : forall ws m, Forall (fun w => Forall is_byte (snd w)) ws -> is_byte (m (base + x)) -> is_byte (apply_writes ws m (base + x))).
    { clear. induction ws as [|w ws IH]; intros m FW M; [exact M|]. inversion FW as [|? ? F1 F2]; subst. cbn [apply_writes fold_left]. apply IH; [exact F2|]. unfold put.
      destruct (_ && _) eqn:E; [|exact M]. rewrite Forall_forall in F1. apply F1, nth_In. lia. }
    apply AB; [|rewrite C0 by exact X; apply HB]. clear -TW. apply Forall_forall. intros w W. unfold trace_writes in TW.
    destruct (omap _ _) as [iw|] eqn:F1 in TW; [|discriminate]. cbn [obind] in TW. destruct (fold_left _ _ _) as [sc|] eqn:F2 in TW; [|discriminate]. cbn [obind] in TW.
    destruct (omap _ _) as [fw|] eqn:F3 in TW; [|discriminate]. cbn [obind] in TW. injection TW as <-. apply in_app_or in W. destruct W as [W|W]; [|apply in_app_or in W; destruct W as [W|W]].
    + apply in_concat in W. destruct W as (l & L & W). apply (omap_in _ _ _ _ F1) in L. destruct L as (e & _ & L). unfold int_write in L.
      destruct (e_type e); try (injection L as <-; destruct W); (destruct (val_of _ _ _); [|discriminate]); cbn [obind] in L; injection L as <-; (destruct W as [<-|[]]); apply to_be_bytes.
    + apply in_map_iff in W. destruct W as (y & <- & _). apply to_be_bytes.
    + apply in_concat in W. destruct W as (l & L & W). apply (omap_in _ _ _ _ F3) in L. destruct L as (e & _ & L). unfold float_write in L.
      destruct (e_type e); try (injection L as <-; destruct W). destruct (val_of _ _ _); [|discriminate]. cbn [obind] in L. destruct (sc_get _ _); [|discriminate]. cbn [obind] in L.
      destruct (dlround _); [|discriminate]. cbn [obind] in L. injection L as <-. destruct W as [<-|[]]. apply to_be_bytes.
  - intros U. rewrite B by lia. rewrite (uncovered_byte p (i + sk) base ws _ x TW U). apply C0. exact X.
Qed.
Definition untouched (rl : rule) (x : Z) : Prop := forall k e a, In (k, e) (translate rl) -> In a (efields e) -> ~ (fst a <= x + 1 < fst a + snd a).
(** The same with the samples only known to satisfy [Q]. *)
Definition call_made (src : Z -> file * Z) (Q : Z -> Z -> Z -> Prop) (ns : Z) (rl : rule) (o : wop) : Prop :=
  match o with
  | WTrace _ t (Some m) (Some p) skip => wf_param p /\ p_rule p = rl /\ 0 <= skip /\ skip + tcount t <= p_sz p /\
    forall j, 0 <= j < tcount t -> let '(f, a) := src (tpos t j) in
      (forall k, 0 <= k < ns -> Q (tpos t j) k (sample m (j * ns + k))) /\ holds p (j + skip) (disk_header f ns a) /\ copied_header p (j + skip) (disk_header f ns a)
  | WTrace _ _ _ _ _ => False
  | _ => True
  end.
Lemma history_made maxSize p h f0 f' nt ns src Q rl :
  written_file maxSize p h f0 f' nt ns -> usable rl -> counts rl MCopy <> 0 ->
  (forall x, In x h -> call_made src Q ns rl (snd x)) -> (forall b, file_bytes (fst (src b))) ->
  forall b, (exists r sizes t trc prm skip j, In (r, WTrace sizes t trc prm skip) h /\ 0 <= j < tcount t /\ tpos t j = b) ->
  let '(f, a) := src b in
  (forall k, 0 <= k < ns -> Q b k (disk_sample f' ns b k)) /\
  (forall x, 0 <= x < 4 * ns -> is_byte (fbyte f' (trace_at ns b + 240 + x))) /\
  (forall x, 0 <= x < 240 -> untouched rl x -> disk_header f' ns b x = disk_header f ns a x) /\
  (forall m e, lookup m (translate rl) = Some e -> e_type e = MLong -> int32_at (disk_header f' ns b) (e_loc e) = int32_at (disk_header f ns a) (e_loc e)) /\
  (forall m e, lookup m (translate rl) = Some e -> e_type e = MShort -> int16_at (disk_header f' ns b) (e_loc e) = int16_at (disk_header f ns a) (e_loc e)) /\
  (forall m e, lookup m (translate rl) = Some e -> e_type e = MFloat -> plain_scale (int16_at (disk_header f ns a) (e_scal e)) ->
     plain_scale (int16_at (disk_header f' ns b) (e_scal e)) /\
     coordinate (disk_header f' ns b) (e_loc e) (e_scal e) = coordinate (disk_header f ns a) (e_loc e) (e_scal e)).
Proof.
  intros W (FR & FO) NC CC FB b (r & sizes & t & trc & prm & skip & j & I & J & E). destruct (src b) as (f, a) eqn:SRC.
  destruct (life_samples _ _ _ _ _ _ _ W) as (L1 & _ & L3 & L4 & _).
  pose proof (CC _ I) as C. cbn [snd call_made] in C. destruct trc as [m0|]; [|contradiction]. destruct prm as [p0|]; [|contradiction].
  assert (IA : 0 <= b < asked_by_all h p).
  { destruct (last_samples ns h b) as [s|] eqn:LS; [apply (L1 b s LS)|]. exfalso. apply (last_some (fun o => written ns o b) h None) in LS; [exact LS|]. right. exists r, (WTrace sizes t (Some m0) (Some p0) skip). split; [exact I|].
    cbn [written]. pose proof (find_pos_of t b j J E). destruct (find_pos t b); [discriminate|contradiction]. }
  split; [|split; [intros x X; apply L3; assumption|]].
  - (* samples *)
    destruct (last_samples ns h b) as [s|] eqn:LS.
    + destruct (L1 b s LS) as (_ & D). intros k K. rewrite D by exact K.
      apply (last_in (fun o => written ns o b)) in LS. destruct LS as [LS|(r' & o' & I' & G)]; [discriminate|].
      specialize (CC _ I'). cbn [snd] in CC. destruct o' as [| | | |sz' t' [m'|] prm' skip']; cbn [written] in G; try discriminate.
      destruct (find_pos t' b) as [j'|] eqn:FP; [|discriminate]. cbn [option_map] in G. injection G as <-. apply find_pos_some in FP. destruct FP as (J' & E').
      cbn [call_made] in CC. destruct prm' as [p'|]; [|contradiction]. destruct CC as (_ & _ & _ & _ & CC). specialize (CC j' J'). rewrite E', SRC in CC. apply CC. exact K.
    + exfalso. apply (last_some (fun o => written ns o b) h None) in LS; [exact LS|]. right. exists r, (WTrace sizes t (Some m0) (Some p0) skip). split; [exact I|].
      cbn [written]. pose proof (find_pos_of t b j J E). destruct (find_pos t b); [discriminate|contradiction].
  - (* headers *)
    assert (MD : forall x, In x h -> md_ok (snd x)).
    { intros x X. specialize (CC x X). destruct (snd x) as [| | | |sz' t' [m'|] [p'|] skip']; cbn [md_ok call_made] in *; try exact Logic.I; try contradiction.
      destruct CC as (A1 & A2 & A3 & A4 & _). rewrite A2. auto. }
    destruct (last_md h b) as [(p', tr)|] eqn:LM.
    + destruct (L4 b p' tr LM MD) as (_ & st & sz & sk & jj & buf & Q1 & Q2 & Q3 & Q4 & Q5 & Q6 & Q7 & Q8 & Q9 & Q10).
      assert (HB : p_rule p' = rl /\ holds p' (jj + sk) (disk_header f ns a) /\ copied_header p' (jj + sk) (disk_header f ns a)).
      { rewrite Q5. apply (last_in (fun o => written_md o b)) in LM. destruct LM as [LM|(r' & o' & I' & G)]; [discriminate|].
        specialize (CC _ I'). cbn [snd] in CC. destruct o' as [| | | |sz' t' [m'|] [p''|] skip']; cbn [written_md] in G; try discriminate; [|contradiction].
        destruct (find_pos t' b) as [j'|] eqn:FP; [|discriminate]. cbn [option_map] in G. injection G as -> <-. apply find_pos_some in FP. destruct FP as (J' & E').
        cbn [call_made] in CC. destruct CC as (_ & A2 & _ & _ & CC). specialize (CC j' J'). rewrite E', SRC in CC. split; [exact A2|]. split; apply CC. }
      destruct HB as (RL & HD & HC0). pose proof (header_copied sz p' st sk buf jj (disk_header f ns a) Q6 (conj Q7 Q8) Q1 Q3 Q4 Q2 Q9 HD) as HC. cbv zeta in HC.
      assert (FH : forall x, is_byte (disk_header f ns a x)) by (intros x; pose proof (FB b) as FBb; rewrite SRC in FBb; apply FBb).
      destruct (header_full sz p' st sk buf jj (disk_header f ns a) Q6 (conj Q7 Q8) ltac:(rewrite RL; exact NC) Q1 Q3 Q4 Q2 Q9 HC0 FH) as (BB & UT). rewrite RL in *.
      assert (R32 : forall l, 1 <= l <= 237 -> int32_at (disk_header f' ns b) l = rd32 buf ((240 + st) * jj + (l - 1))).
      { intros l Hl. rewrite int32_rd by (intros k K; rewrite Q10 by lia; apply BB; lia). apply rd32_shift. intros k K. rewrite Q10 by lia. f_equal. lia. }
      assert (R16 : forall l, 1 <= l <= 239 -> int16_at (disk_header f' ns b) l = rd16 buf ((240 + st) * jj + (l - 1))).
      { intros l Hl. rewrite int16_rd by (rewrite Q10 by lia; apply BB; lia). unfold rd16. rewrite !Q10 by lia. f_equal; f_equal; lia. }
      split; [|split; [|split]].
      * intros x X U. rewrite Q10 by exact X. apply UT; [exact X|exact U].
      * intros m e LK T. destruct (FO m e (e_loc e, 4) (ReadProofs.lookup_in _ _ _ LK)) as (B1 & B2 & _); [unfold efields; rewrite T; left; reflexivity|]. cbn [fst snd] in *.
        rewrite R32 by lia. rewrite (proj1 (HC m e LK) T). rewrite int32_rd by (intros; apply FH). reflexivity.
      * intros m e LK T. destruct (FO m e (e_loc e, 2) (ReadProofs.lookup_in _ _ _ LK)) as (B1 & B2 & _); [unfold efields; rewrite T; left; reflexivity|]. cbn [fst snd] in *.
        rewrite R16 by lia. rewrite (proj1 (proj2 (HC m e LK)) T). rewrite int16_rd by (intros; apply FH). reflexivity.
      * intros m e LK T PS. destruct (FO m e (e_loc e, 4) (ReadProofs.lookup_in _ _ _ LK)) as (B1 & B2 & _); [unfold efields; rewrite T; left; reflexivity|].
        destruct (FO m e (e_scal e, 2) (ReadProofs.lookup_in _ _ _ LK)) as (B3 & B4 & _); [unfold efields; rewrite T; right; left; reflexivity|]. cbn [fst snd] in *.
        unfold coordinate. rewrite R32, R16 by lia. rewrite int16_rd in * by (intros; apply FH). rewrite int32_rd by (intros; apply FH). apply (proj2 (proj2 (HC m e LK)) T PS).
    + exfalso. apply (last_some (fun o => written_md o b) h None) in LM; [exact LM|]. right. exists r, (WTrace sizes t (Some m0) (Some p0) skip). split; [exact I|].
      cbn [written_md]. pose proof (find_pos_of t b j J E). destruct (find_pos t b); [discriminate|contradiction].
Qed.
Lemma history_full maxSize p h f0 f' nt ns src rl :
  written_file maxSize p h f0 f' nt ns -> usable rl -> counts rl MCopy <> 0 ->
  (forall x, In x h -> call_full src ns rl (snd x)) -> (forall b, file_bytes (fst (src b))) ->
  forall b, (exists r sizes t trc prm skip j, In (r, WTrace sizes t trc prm skip) h /\ 0 <= j < tcount t /\ tpos t j = b) ->
  let '(f, a) := src b in
  (forall k, 0 <= k < ns -> disk_sample f' ns b k = disk_sample f ns a k) /\
  (forall x, 0 <= x < 4 * ns -> is_byte (fbyte f' (trace_at ns b + 240 + x))) /\
  (forall x, 0 <= x < 240 -> untouched rl x -> disk_header f' ns b x = disk_header f ns a x) /\
  (forall m e, lookup m (translate rl) = Some e -> e_type e = MLong -> int32_at (disk_header f' ns b) (e_loc e) = int32_at (disk_header f ns a) (e_loc e)) /\
  (forall m e, lookup m (translate rl) = Some e -> e_type e = MShort -> int16_at (disk_header f' ns b) (e_loc e) = int16_at (disk_header f ns a) (e_loc e)) /\
  (forall m e, lookup m (translate rl) = Some e -> e_type e = MFloat -> plain_scale (int16_at (disk_header f ns a) (e_scal e)) ->
     plain_scale (int16_at (disk_header f' ns b) (e_scal e)) /\
     coordinate (disk_header f' ns b) (e_loc e) (e_scal e) = coordinate (disk_header f ns a) (e_loc e) (e_scal e)).
Proof.
  intros W U NC CC FB b C.
  pose proof (history_made maxSize p h f0 f' nt ns src (fun b k w => w = disk_sample (fst (src b)) ns (snd (src b)) k) rl W U NC) as H.
  assert (CM : forall x, In x h -> call_made src (fun b k w => w = disk_sample (fst (src b)) ns (snd (src b)) k) ns rl (snd x)).
  { intros x X. specialize (CC x X). destruct (snd x) as [| | | |sz t [m|] [q|] skip]; cbn [call_full call_made] in *; try exact CC. destruct CC as (A1 & A2 & A3 & A4 & A5). repeat (split; [assumption|]).
    intros j J. specialize (A5 j J). destruct (src (tpos t j)) as (f, a). cbn [fst snd]. exact A5. }
  specialize (H CM FB b C). cbn beta in H. destruct (src b) as (f, a). cbn [fst snd] in H. exact H.
Qed.

(** ---- one block ---- *)
Lemma sorted_last (l : list Z) : StronglySorted (fun a b => (b <? a) = false) l -> Forall (fun x => x <= last l 0) l.
Proof.
  intros S. induction S as [|x l S IH F]; [constructor|]. destruct l as [|y l]; [repeat constructor; cbn; lia|].
  change (last (x :: y :: l) 0) with (last (y :: l) 0). constructor; [|exact IH]. inversion IH as [|? ? A B]; subst. inversion F; subst. lia.
Qed.
Lemma map_nth_pos (g : nat -> Z) (idx : list nat) j : (j < length idx)%nat -> nth j (map g idx) 0 = g (nth j idx 0%nat).
Proof. intros J. rewrite (nth_indep _ 0 (g 0%nat)) by (rewrite map_length; exact J). apply map_nth. Qed.
Definition moved (o : wop) (b : Z) : Prop := exists sizes t trc prm skip j, o = WTrace sizes t trc prm skip /\ 0 <= j < tcount t /\ tpos t j = b.
Section Block.
Context (maxSize : Z) (rl : rule) (srt : sorter) (rd : reader) (f : file) (ns nt : Z) (src : Z -> file * Z).
Context (M : 2 * (240 + 4 * ns) <= maxSize) (NSE : r_ns rd = ns) (F : fits (r_nt rd) ns) (HT : has_traces f (r_nt rd) ns) (FB : file_bytes f) (FM : r_format rd <> 1).
Context (US : usable rl) (GD : good rl) (LB : exists e, lookup 1 (translate rl) = Some e /\ e_type e = MIndex) (NC : counts rl MCopy <> 0).
Context (SRT : std_sort srt).
Lemma set_block_spec sizes ilst olst i n : (i + n <= length ilst)%nat -> length olst = length ilst -> NoDup olst ->
  (forall j, (j < length ilst)%nat -> 0 <= nth j olst 0 < nt /\ 0 <= nth j ilst 0 < r_nt rd /\ src (nth j olst 0) = (f, nth j ilst 0)) ->
  exists o, set_block maxSize sizes rl srt rd f ilst olst (i, n) = Some o /\ good_write nt ns o /\ call_full src ns rl o /\ writes o /\
  (forall j, (i <= j < i + n)%nat -> moved o (nth j olst 0)).
Proof.
  intros IN LO ND H. cbn [set_block]. set (lt := fun s1 s2 => nth (i + s1) olst 0 <? nth (i + s2) olst 0).
  destruct (SRT nat lt (seq 0 n) (nth_weak olst i _)) as (PM & SO). set (idx := srt nat lt (seq 0 n)) in *.
  assert (LI : length idx = n) by (rewrite <- (Permutation_length PM), seq_length; reflexivity).
  assert (IB : forall k, (k < n)%nat -> (nth k idx 0 < n)%nat).
  { intros k K. assert (I : In (nth k idx 0%nat) (seq 0 n)) by (apply (Permutation_in _ (Permutation_sym PM)), nth_In; lia). apply in_seq in I. lia. }
  assert (NDI : NoDup idx) by (apply (Permutation_NoDup PM), seq_NoDup).
  set (il := map (fun s => nth (i + s) ilst 0) (seq 0 n)). assert (LIL : length il = n) by (unfold il; rewrite map_length, seq_length; reflexivity).
  assert (NIL : forall k, (k < n)%nat -> nth k il 0 = nth (i + k) ilst 0).
  { intros k K. unfold il. rewrite map_nth_pos by (rewrite seq_length; exact K). rewrite seq_nth by exact K. reflexivity. }
  pose proof F as (N0 & NT0 & _). destruct US as (FR & FO).
  unfold readTraceNonContiguous. rewrite NSE.
  destruct (read_spec maxSize (sizes i) (r_format rd) ns (r_nt rd) (Listed il) (Some (fun _ => 0)) (Some (newParam rl (Z.of_nat n))) 0 f M F) as (t' & q' & R & _ & A & _ & B).
  { cbn [tvalid]. apply Forall_forall. intros x X. apply in_map_iff in X. destruct X as (s & <- & S). apply in_seq in S. apply H. lia. }
  { exact HT. } { intros; apply FB. } { exact FM. } { left; discriminate. }
  { intros q Q. injection Q as <-. split; [apply newParam_wf; [exact GD|lia]|]. split; [exact FR|]. split; [exact FO|]. split; [exact LB|]. cbn [tcount p_sz newParam]. lia. }
  rewrite R. cbn [obind]. destruct (A _ eq_refl) as (sm & -> & SS & SO2). destruct (B _ eq_refl) as (sq & -> & WQ & RQ & SQ & DQ & _ & _ & CQ). cbn [obind tcount tpos p_rule p_sz newParam] in *. clear A B.
  set (js := List.combine (seq 0 n) (map Z.of_nat idx)).
  assert (LJ : length js = n) by (unfold js; rewrite combine_length, map_length, seq_length; lia).
  assert (JN : forall k, (k < n)%nat -> nth k js (0%nat, 0) = (k, Z.of_nat (nth k idx 0%nat))).
  { intros k K. unfold js. rewrite combine_nth by (rewrite map_length, seq_length; lia). rewrite seq_nth by exact K. rewrite map_nth_pos by lia. reflexivity. }
  assert (JI : forall x, In x js -> exists k, (k < n)%nat /\ x = (k, Z.of_nat (nth k idx 0%nat))).
  { intros x X. apply (In_nth js x (0%nat, 0)) in X. destruct X as (k & K & <-). rewrite LJ in K. exists k. split; [exact K|apply JN; exact K]. }
  assert (JF : map fst js = seq 0 n).
  { unfold js. assert (L : length (seq 0 n) = length (map Z.of_nat idx)) by (rewrite seq_length, map_length; lia). revert L. clear. generalize (map Z.of_nat idx) as l2, (seq 0 n) as l1. intros l2 l1. revert l2. induction l1 as [|a l IH]; intros [|g gs] L; try discriminate; [reflexivity|].
    cbn [List.combine map fst]. f_equal. apply IH. cbn in L. lia. }
  assert (WN : wf_param (newParam rl (Z.of_nat n))) by (apply newParam_wf; [exact GD|lia]).
  destruct (scatter_copies sq WQ ltac:(rewrite RQ; exact NC) ltac:(rewrite RQ; exact FR) js (newParam rl (Z.of_nat n)) WN) as (q & EQ & WQ' & RQ' & SQ' & GQ & CPQ & _ & _).
  { cbn [p_rule newParam]. congruence. } { rewrite JF. apply seq_NoDup. }
  { intros x X. destruct (JI x X) as (k & K & ->). cbn [fst snd newParam p_sz]. rewrite SQ. specialize (IB k K). lia. }
  rewrite EQ. cbn [obind]. cbn [p_rule p_sz newParam] in *. eexists. split; [reflexivity|].
  set (ol := map (fun s => nth (i + s) olst 0) idx). assert (LOL : length ol = n) by (unfold ol; rewrite map_length; exact LI).
  assert (NOL : forall k, (k < n)%nat -> nth k ol 0 = nth (i + nth k idx 0%nat) olst 0) by (intros k K; unfold ol; rewrite map_nth_pos by lia; reflexivity).
  destruct (copies_spec (fun jn : nat * Z => 4 * (Z.of_nat (fst jn) * ns)) (fun jn => 4 * (snd jn * ns)) (fun _ => 4 * ns) sm js (fun _ => 0)) as (CA & CB).
  { intros a b x Ia Ib Xa Xb. destruct (JI a Ia) as (ka & Ka & ->). destruct (JI b Ib) as (kb & Kb & ->). cbn [fst snd] in *.
    assert (EK : Z.of_nat ka = Z.of_nat kb) by (apply (stride_same (4 * ns) _ _ x 0 (4 * ns)); lia). assert (ka = kb) as -> by lia. reflexivity. }
  set (m := scatter_trc ns sm js (fun _ => 0)). unfold scatter_trc in m. fold m in CA, CB.
  assert (SMB : mem_bytes sm).
  { intros a. destruct (read_converted _ _ _ _ _ _ _ _ _ _ _ R FM) as (tb & TB). cbn [tcount] in TB. rewrite LIL in *.
    assert (NN : 0 <= ns * Z.of_nat n) by (apply Z.mul_nonneg_nonneg; lia).
    destruct (Z_lt_dec a 0); [rewrite SO2 by lia; unfold is_byte; lia|]. destruct (Z_lt_dec a (4 * (ns * Z.of_nat n))); [|rewrite SO2 by lia; unfold is_byte; lia]. rewrite TB. apply from_disk_bytes; lia. }
  assert (MB : mem_bytes m).
  { intros a. destruct (existsb (fun jn : nat * Z => (4 * (Z.of_nat (fst jn) * ns) <=? a) && (a <? 4 * (Z.of_nat (fst jn) * ns) + 4 * ns)) js) eqn:E.
    - apply existsb_exists in E. destruct E as (x & X & E). rewrite (CA x a X) by lia. apply SMB.
    - rewrite CB; [unfold is_byte; lia|]. intros x X Q. rewrite <- not_true_iff_false in E. apply E, existsb_exists. exists x. split; [exact X|lia]. }
  assert (TR : forall k, (k < n)%nat -> src (nth k ol 0) = (f, nth (i + nth k idx 0%nat) ilst 0) /\ 0 <= nth k ol 0 < nt /\
    (forall x, 0 <= x < ns -> sample m (Z.of_nat k * ns + x) = disk_sample f ns (nth (i + nth k idx 0%nat) ilst 0) x) /\
    holds q (Z.of_nat k) (disk_header f ns (nth (i + nth k idx 0%nat) ilst 0)) /\ copied_header q (Z.of_nat k) (disk_header f ns (nth (i + nth k idx 0%nat) ilst 0))).
  { intros k K. specialize (IB k K). destruct (H (i + nth k idx 0%nat)%nat ltac:(lia)) as (H1 & H2 & H3). rewrite NOL by exact K. split; [exact H3|]. split; [exact H1|].
    assert (IJ : In (k, Z.of_nat (nth k idx 0%nat)) js) by (rewrite <- JN by exact K; apply nth_In; lia).
    assert (ILK : nth (Z.to_nat (Z.of_nat (nth k idx 0%nat))) il 0 = nth (i + nth k idx 0%nat) ilst 0) by (rewrite Nat2Z.id; apply NIL; exact IB).
    split; [|split].
    - intros x X.
      assert (Y : forall b, 0 <= b < 4 -> m (4 * (Z.of_nat k * ns + x) + b) = sm (4 * (Z.of_nat (nth k idx 0%nat) * ns + x) + b)).
      { intros b Hb. rewrite (CA _ (4 * (Z.of_nat k * ns + x) + b) IJ) by (cbn [fst snd]; lia). cbn [fst snd]. f_equal. lia. }
      unfold sample, le32. pose proof (Y 0 ltac:(lia)) as Y0. rewrite !Z.add_0_r in Y0. rewrite Y0, !Y by lia.
      specialize (SS (Z.of_nat (nth k idx 0%nat)) x ltac:(lia) X). rewrite ILK in SS. exact SS.
    - intros mm e v LK D. rewrite RQ' in LK. pose proof (GQ _ mm e IJ LK) as Q. cbn [fst snd] in Q. rewrite Q.
      specialize (DQ (Z.of_nat (nth k idx 0%nat)) mm e v ltac:(lia) LK). rewrite ILK, Z.add_0_r in DQ. apply DQ. exact D.
    - intros x X. pose proof (CPQ _ x IJ X) as Q. cbn [fst snd] in Q. rewrite Q. specialize (CQ NC (Z.of_nat (nth k idx 0%nat)) x ltac:(lia) X). rewrite ILK, Z.add_0_r in CQ. rewrite CQ. reflexivity. }
  assert (FIN : Forall (fun x => 0 <= x < nt) ol).
  { apply Forall_forall. intros x X. apply (In_nth ol x 0) in X. destruct X as (k & K & <-). rewrite LOL in K. apply TR. exact K. }
  split; [|split; [|split]].
  - cbn [good_write in_file write_fine tcount]. split; [split; [exact FIN|]|split; [split; [exact FIN|]|]].
    + unfold ol. clear -ND NDI IB LO IN LI. apply (NoDup_nth _ 0). intros a b La Lb E. rewrite map_length in La, Lb. rewrite LI in La, Lb. rewrite !map_nth_pos in E by lia.
      pose proof (IB a La). pose proof (IB b Lb). apply (proj1 (NoDup_nth olst 0) ND) in E; [|lia|lia]. apply (proj1 (NoDup_nth idx 0%nat) NDI); lia.
    + apply sorted_last. unfold ol. clear -SO. unfold sorted in SO. induction SO as [|x l S IH FA]; [constructor|]. cbn [map]. constructor; [exact IH|].
      apply Forall_forall. intros y Y. apply in_map_iff in Y. destruct Y as (s & <- & Y). rewrite Forall_forall in FA. apply (FA s Y).
    + split; [intros z Q; injection Q as <-; exact MB|]. split; [left; discriminate|]. intros z Q. injection Q as <-. apply holds_insert; [exact WQ'|lia|rewrite SQ', LOL; lia|].
      intros j J. exists (disk_header f ns (nth (i + nth (Z.to_nat j) idx 0%nat) ilst 0)). destruct (TR (Z.to_nat j) ltac:(lia)) as (_ & _ & _ & Q & _). rewrite Z2Nat.id in Q by lia. rewrite Z.add_0_r. exact Q.
  - cbn [call_full tcount tpos]. split; [exact WQ'|]. split; [exact RQ'|]. split; [lia|]. split; [rewrite SQ', LOL; lia|]. intros j J.
    destruct (TR (Z.to_nat j) ltac:(lia)) as (Q1 & _ & Q2 & Q3 & Q4). rewrite Q1. rewrite Z2Nat.id in * by lia. rewrite Z.add_0_r. auto.
  - exact Logic.I.
  - intros j J. assert (I : In (j - i)%nat idx) by (apply (Permutation_in _ PM), in_seq; lia). apply (In_nth idx _ 0%nat) in I. destruct I as (k & K & E). rewrite LI in K.
    exists (sizes i), (Listed ol), (Some m), (Some q), 0, (Z.of_nat k). split; [reflexivity|]. cbn [tcount tpos]. split; [lia|]. rewrite Nat2Z.id, NOL, E by exact K. f_equal. lia.
Qed.
(** The calls without traces. *)
Lemma empty_call sz : good_write nt ns (WTrace sz (Listed []) (Some (fun _ => 0)) (Some (newParam rl 0)) 0) /\ call_full src ns rl (WTrace sz (Listed []) (Some (fun _ => 0)) (Some (newParam rl 0)) 0).
Proof.
  assert (WN : wf_param (newParam rl 0)) by (apply newParam_wf; [exact GD|lia]). split.
  - cbn [good_write in_file write_fine tcount length]. split; [split; constructor|]. split; [split; constructor|]. split; [intros z Q; injection Q as <-; intros a; unfold is_byte; lia|]. split; [left; discriminate|].
    intros z Q. injection Q as <-. apply holds_insert; [exact WN|lia|cbn [p_sz newParam]; lia|lia].
  - cbn [call_full tcount length p_rule p_sz newParam]. split; [exact WN|]. split; [reflexivity|]. split; [lia|]. split; [lia|lia].
Qed.
(** All the calls of one file of the group. *)
Lemma set_file_spec sizes max biggest fd : (0 < max)%nat -> length (f_olst fd) = length (f_ilst fd) -> NoDup (f_olst fd) -> (length (f_ilst fd) <= biggest)%nat ->
  (forall j, (j < length (f_ilst fd))%nat -> 0 <= nth j (f_olst fd) 0 < nt /\ 0 <= nth j (f_ilst fd) 0 < r_nt rd /\ src (nth j (f_olst fd) 0) = (f, nth j (f_ilst fd) 0)) ->
  exists ws, set_file maxSize sizes rl srt max biggest (rd, f) fd = Some ws /\ length ws = ceil_div biggest max /\
  (forall o, In o ws -> good_write nt ns o /\ call_full src ns rl o) /\
  (forall j, (j < length (f_ilst fd))%nat -> exists o, In o ws /\ moved o (nth j (f_olst fd) 0)).
Proof.
  intros MX LO ND LB2 H. unfold set_file. cbn [fst snd]. set (lnt := length (f_ilst fd)) in *. destruct (block_list_spec max lnt MX) as (A & LN & C). rewrite Forall_forall in C.
  destruct (omap_blocks (set_block maxSize sizes rl srt rd f (f_ilst fd) (f_olst fd)) (fun b o => good_write nt ns o /\ call_full src ns rl o /\ forall j, (fst b <= j < fst b + snd b)%nat -> moved o (nth j (f_olst fd) 0)) (block_list max lnt)) as (ws & EW & LW & WA & WB).
  { intros (i, n) B. destruct (C _ B) as (C1 & C2). cbn [fst snd] in *. destruct (set_block_spec sizes (f_ilst fd) (f_olst fd) i n C2 LO ND H) as (o & E & G & CF & _ & MV). exists o. auto. }
  rewrite EW. cbn [obind]. eexists. split; [reflexivity|]. split; [|split].
  - rewrite app_length, map_length, seq_length, LW, LN. unfold extra_blocks. pose proof (ceil_mono max lnt biggest MX LB2). lia.
  - intros o O. apply in_app_or in O. destruct O as [O|O]; [destruct (WA o O) as (b & _ & G & CF & _); auto|]. apply in_map_iff in O. destruct O as (e & <- & _). apply empty_call.
  - intros j J. assert (I : In j (flat_map (fun b => seq (fst b) (snd b)) (block_list max lnt))) by (rewrite A; apply in_seq; lia). apply in_flat_map in I. destruct I as (b & B & JB). apply in_seq in JB.
    destruct (WB b B) as (o & O & _ & _ & MV). exists o. split; [apply in_or_app; left; exact O|apply MV; exact JB].
Qed.
End Block.
