(** What reading returns. *)
From Coq Require Import Reals Lra Permutation Sorted.
From Flocq Require Import Core IEEE754.BinarySingleNaN.
From Verif Require Import Base NumEncModel NumEncSpec NumEncProofs CharEncModel LayoutModel LayoutProofs DataIOModel DataIOProofs
  RuleModel RuleProofs DoubleModel ParamModel ParamProofs HeaderProofs FileSpec FileModel FileProofs WriteSpec WriteProofs ParamProperties.
Open Scope Z_scope.

Lemma set_slot_value p t i v p' : set_slot p t i v = Some p' -> p_rule p' = p_rule p /\ p_sz p' = p_sz p /\ p_len p' = p_len p /\
  forall t' j, p_at p' t' j = if mdtype_eqb t' t && (j =? i) then v else p_at p t' j.
Proof. unfold set_slot. destruct (_ && _); [|discriminate]. intros H; injection H as <-. auto. Qed.

Lemma lookup_in m l e : lookup m l = Some e -> In (m, e) l.
Proof.
  induction l as [|[k x] l IH]; [discriminate|]. cbn [lookup]. destruct (Z.eqb_spec k m) as [->|N]; intros H; [injection H as ->; left; reflexivity|right; auto].
Qed.

(** Labels: metadata 1 (ltn) of the traces read. *)
Definition labelled (p : param) : Prop := exists e, lookup 1 (translate (p_rule p)) = Some e /\ e_type e = MIndex.
Lemma set_labels_spec t skip e : forall n p, wf_param p -> lookup 1 (translate (p_rule p)) = Some e -> e_type e = MIndex ->
  0 <= skip -> skip + Z.of_nat n <= p_sz p -> (forall i, 0 <= i < Z.of_nat n -> in_u64 (tpos t i)) ->
  exists p', set_labels t (Z.of_nat n) skip p = Some p' /\ wf_param p' /\ p_rule p' = p_rule p /\ p_sz p' = p_sz p /\
  (forall i, 0 <= i < Z.of_nat n -> getPrm (i + skip) 1 p' = Some (VI (tpos t i))) /\
  (forall i m, 0 <= i < p_sz p -> (m <> 1 \/ i < skip \/ skip + Z.of_nat n <= i) -> getPrm i m p' = getPrm i m p).
Proof.
  intros n p W L T K. unfold set_labels. rewrite zr_nat. induction n as [|n IH]; intros H B.
  - exists p. split; [reflexivity|]. split; [exact W|]. split; [reflexivity|]. split; [reflexivity|]. split; [intros; lia|reflexivity].
  - rewrite zrange_S, fold_left_app. destruct IH as (p1 & -> & W1 & R1 & S1 & A1 & B1); [lia|intros; apply B; lia|]. cbn [fold_left obind].
    rewrite <- R1 in L. destruct (set_get p1 (Z.of_nat n + skip) 1 (VI (tpos t (Z.of_nat n))) e W1 L ltac:(lia)) as (p2 & E & R2 & W2 & S2 & G & O).
    { rewrite T. apply B. lia. }
    exists p2. split; [exact E|]. split; [exact W2|]. split; [congruence|]. split; [congruence|]. split.
    + intros i I. destruct (Z.eq_dec i (Z.of_nat n)) as [->|NE]; [exact G|]. rewrite O by (first [lia|intros Q; injection Q; lia]). apply A1. lia.
    + intros i m I D. rewrite O by (first [lia|intros Q; injection Q; lia]). apply B1; [exact I|]. lia.
Qed.

(** One read. *)
Lemma read_spec maxSize sizes fmt ns nt t trc prm skip f :
  2 * (240 + 4 * ns) <= maxSize -> fits nt ns -> tvalid nt t -> has_traces f nt ns ->
  (forall i j, 0 <= i < tcount t -> 0 <= j < 4 * ns -> is_byte (fbyte f (trace_at ns (tpos t i) + 240 + j))) -> fmt <> 1 ->
  (trc <> None \/ prm <> None) ->
  (forall p, prm = Some p -> wf_param p /\ full_rule (p_rule p) /\ fields_ok (p_rule p) /\ labelled p /\ 0 <= skip /\ skip + tcount t <= p_sz p) ->
  exists trc' prm', readTraceT maxSize sizes fmt ns t trc prm skip f = Some (trc', prm') /\
  (trc = None -> trc' = None) /\
  (forall m, trc = Some m -> exists m', trc' = Some m' /\
     (forall i k, 0 <= i < tcount t -> 0 <= k < ns -> sample m' (i * ns + k) = disk_sample f ns (tpos t i) k) /\
     (forall a, a < 0 \/ 4 * (ns * tcount t) <= a -> m' a = m a)) /\
  (prm = None -> prm' = None) /\
  (forall p, prm = Some p -> exists p', prm' = Some p' /\ wf_param p' /\ p_rule p' = p_rule p /\ p_sz p' = p_sz p /\
     (forall i m e v, 0 <= i < tcount t -> lookup m (translate (p_rule p)) = Some e ->
        decode (disk_header f ns (tpos t i)) 0 0 e = Some v -> getPrm (i + skip) m p' = Some v) /\
     (forall i, 0 <= i < tcount t -> getPrm (i + skip) 1 p' = Some (VI (tpos t i))) /\
     (forall i m e, 0 <= i < p_sz p -> i < skip \/ skip + tcount t <= i -> lookup m (translate (p_rule p)) = Some e -> getPrm i m p' = getPrm i m p) /\
     (counts (p_rule p) MCopy <> 0 -> forall i x, 0 <= i < tcount t -> 0 <= x < 240 ->
        p_at p' MCopy ((i + skip) * 240 + x) = VI (disk_header f ns (tpos t i) x))).
Proof.
  intros M F V HT FB FMT NN HP. pose proof F as (N & NT & SZ & W). pose proof (tcount_nonneg nt t V) as TN.
  unfold readTraceT.
  assert (NS0 : 0 <= ns * tcount t) by (apply Z.mul_nonneg_nonneg; lia).
  (* conversion of samples *)
  assert (CONV : forall tb m : mem, (forall i j, 0 <= i < tcount t -> 0 <= j < 4 * ns -> tb (4 * ns * i + j) = fbyte f (trace_at ns (tpos t i) + 240 + j)) ->
     (forall a, a < 0 \/ 4 * ns * tcount t <= a -> tb a = m a) ->
     exists m', convert_read fmt (ns * tcount t) (Some tb) = Some (Some m') /\
     (forall i k, 0 <= i < tcount t -> 0 <= k < ns -> sample m' (i * ns + k) = disk_sample f ns (tpos t i) k) /\
     (forall a, a < 0 \/ 4 * (ns * tcount t) <= a -> m' a = m a)).
  { intros tb m A O. cbn [convert_read]. destruct (Z.eqb_spec fmt 1) as [?|_]; [contradiction|]. eexists. split; [reflexivity|].
    assert (BY : forall x, 0 <= x < 4 * (ns * tcount t) -> is_byte (tb x)).
    { intros x X. destruct (split_index (tcount t) (4 * ns) x TN ltac:(lia) ltac:(lia)) as (_ & k & j & K & J & ->). rewrite A by assumption. apply FB; assumption. }
    split.
    - intros i k I K. assert (IK : 0 <= i * ns + k < ns * tcount t).
      { assert ((i + 1) * ns <= tcount t * ns) by (apply Z.mul_le_mono_nonneg_r; lia).
        assert (0 <= i * ns) by (apply Z.mul_nonneg_nonneg; lia). lia. }
      rewrite (word_read _ _ _ NS0 BY IK). unfold disk_sample. cbv zeta.
      assert (X : forall b, 0 <= b < 4 -> tb (4 * (i * ns + k) + b) = fbyte f (trace_at ns (tpos t i) + 240 + 4 * k + b)).
      { intros b Hb. replace (4 * (i * ns + k) + b) with (4 * ns * i + (4 * k + b)) by lia. rewrite A by lia. f_equal. lia. }
      pose proof (X 0 ltac:(lia)) as X0. rewrite !Z.add_0_r in X0. rewrite X0, !X by lia. reflexivity.
    - intros a Ha. rewrite from_disk_spec by assumption. replace (_ && _) with false by lia. apply O. lia. }
  destruct prm as [p|].
  - destruct (HP p eq_refl) as (WP & FR & FO & (le & LL & LT) & K0 & K1). clear HP.
    (* parameters, for a buffer holding the headers *)
    assert (PRM : forall buf stride, 0 <= stride ->
       (forall i x, 0 <= i < tcount t -> 0 <= x < 240 -> buf ((240 + stride) * i + x) = disk_header f ns (tpos t i) x) ->
       exists p1 p', extractParam (tcount t) buf 0 p stride skip = Some p1 /\ set_labels t (tcount t) skip p1 = Some p' /\
       wf_param p' /\ p_rule p' = p_rule p /\ p_sz p' = p_sz p /\
       (forall i m e v, 0 <= i < tcount t -> lookup m (translate (p_rule p)) = Some e ->
          decode (disk_header f ns (tpos t i)) 0 0 e = Some v -> getPrm (i + skip) m p' = Some v) /\
       (forall i, 0 <= i < tcount t -> getPrm (i + skip) 1 p' = Some (VI (tpos t i))) /\
       (forall i m e, 0 <= i < p_sz p -> i < skip \/ skip + tcount t <= i -> lookup m (translate (p_rule p)) = Some e -> getPrm i m p' = getPrm i m p) /\
       (counts (p_rule p) MCopy <> 0 -> forall i x, 0 <= i < tcount t -> 0 <= x < 240 ->
          p_at p' MCopy ((i + skip) * 240 + x) = VI (disk_header f ns (tpos t i) x))).
    { intros buf stride ST HB.
      destruct (extract_spec (tcount t) buf 0 p stride skip WP FR TN K0 K1) as (p1 & E1 & W1 & R1 & S1 & LEN1 & A1 & C1 & U1).
      pose proof LL as LL1. rewrite <- R1 in LL1.
      destruct (set_labels_spec t skip le (Z.to_nat (tcount t)) p1 W1 LL1 LT K0 ltac:(lia)) as (p' & E2 & W2 & R2 & S2 & G & O).
      { intros i I. pose proof (tpos_range nt t i V ltac:(lia)) as P. unfold in_u64.
        assert (nt * 240 <= nt * (240 + 4 * ns)) by (apply Z.mul_le_mono_nonneg_l; lia). lia. }
      rewrite Z2Nat.id in * by exact TN.
      exists p1, p'. split; [exact E1|]. split; [exact E2|]. split; [exact W2|]. split; [congruence|]. split; [congruence|].
      assert (DEC : forall i e v, 0 <= i < tcount t -> In e (map snd (translate (p_rule p))) -> decode (disk_header f ns (tpos t i)) 0 0 e = Some v ->
                 decode buf 0 (0 + (240 + stride) * i) e = Some v).
      { intros i e v I Ie Dv. apply in_map_iff in Ie. destruct Ie as ([k e'] & Q & Ie). cbn in Q. subst e'.
        rewrite <- Dv. rewrite Z.add_0_l. rewrite <- (Z.add_0_l ((240 + stride) * i)). rewrite <- (decode_shift buf 0 0 e ((240 + stride) * i)).
        apply (decode_ext (p_rule p) _ _ 0 e k FO Ie). intros x X. rewrite Z.add_comm. apply HB; [exact I|lia]. }
      split; [|split; [|split]].
      - intros i m e v I L Dv. assert (NM : m <> 1).
        { intros ->. rewrite LL in L. injection L as <-. apply decode_copyfree in Dv. tauto. }
        rewrite O by (first [lia|auto]). pose proof L as L1. rewrite <- R1 in L1.
        rewrite (getPrm_at p1 (i + skip) m e W1 L1) by (first [apply (decode_copyfree _ _ _ _ _ Dv)|lia]). f_equal. rewrite R1.
        apply (A1 i m e v I); [apply lookup_in; exact L|]. apply DEC; [exact I| |exact Dv]. apply in_map_iff. exists (m, e). split; [reflexivity|apply lookup_in; exact L].
      - exact G.
      - intros i m e I D L. rewrite O by (first [lia|auto]). destruct (mdtype_eqb (e_type e) MCopy) eqn:TE.
        2:{ assert (NC : e_type e <> MCopy) by (intros Q; rewrite Q in TE; discriminate).
            pose proof L as L1. rewrite <- R1 in L1. rewrite (getPrm_at p1 i m e W1 L1 NC) by lia.
            rewrite (getPrm_at p i m e WP L NC) by lia. f_equal. rewrite R1. apply U1; [|congruence].
            intros i' k e' v' I' IN' D' Q. assert (Q1 : e_type e = e_type e') by congruence.
            assert (Q2 : slot (p_rule p) i e = slot (p_rule p) (i' + skip) e') by congruence.
            pose proof WP as (GD & _). assert (L' : lookup k (translate (p_rule p)) = Some e') by (apply in_lookup; [apply GD|exact IN']).
            destruct (slot_inj (p_rule p) i (i' + skip) m k e e' GD L L' Q1 Q2). lia. }
        assert (TC : e_type e = MCopy) by (destruct (e_type e); try discriminate; reflexivity).
        unfold getPrm, getEntry. rewrite R1, L, TC. reflexivity.
      - intros CC i x I X. pose proof (C1 CC i x I X) as Q. rewrite Z.add_0_l, HB in Q by assumption. rewrite <- Q.
        clear -E2. unfold set_labels in E2. revert p1 E2. generalize (zr (tcount t)). induction l as [|a l IH]; intros p1 E2.
        + cbn in E2. injection E2 as ->. reflexivity.
        + cbn [fold_left obind] in E2. destruct (setPrm _ _ _ p1) as [p2|] eqn:E3.
          * rewrite (IH p2 E2). apply (setPrm_copy _ _ _ _ _ E3).
          * exfalso. clear -E2. induction l as [|b l IH]; [discriminate|exact (IH E2)]. }
    destruct trc as [m|].
    + destruct (obj_read f maxSize sizes Full t ns nt (fun _ => 0) M F V HT) as (buf & E1 & A1 & _). rewrite E1. cbn [option_map obind plo plen] in *.
      destruct (take_samples_spec ns (tcount t) m buf N W TN) as (T1 & T2).
      rewrite getDFSz_exact by assumption.
      destruct (PRM buf (4 * ns) ltac:(lia)) as (p1 & p' & E2 & E3 & Q).
      { intros i x I X. unfold disk_header. rewrite A1 by lia. f_equal. lia. }
      rewrite E2. cbn [obind]. rewrite E3. cbn [obind].
      destruct (CONV (take_samples ns (tcount t) buf m) m) as (m' & E4 & S1 & S2).
      { intros i j I J. rewrite T1 by assumption. rewrite <- Z.add_assoc. rewrite A1 by lia. f_equal. lia. }
      { exact T2. }
      rewrite E4. cbn [obind]. eexists _, _. split; [reflexivity|]. split; [discriminate|]. split; [|split; [discriminate|]].
      * intros m0 E. injection E as <-. exists m'. auto.
      * intros p0 E. injection E as <-. exists p'. split; [reflexivity|exact Q].
    + destruct (obj_read f maxSize sizes Head t ns nt (fun _ => 0) M F V HT) as (buf & E1 & A1 & _). rewrite E1. cbn [option_map obind plo plen] in *.
      destruct (PRM buf 0 ltac:(lia)) as (p1 & p' & E2 & E3 & Q).
      { intros i x I X. unfold disk_header. replace ((240 + 0) * i + x) with (240 * i + x) by lia. rewrite A1 by lia. f_equal. lia. }
      rewrite E2. cbn [obind]. rewrite E3. cbn [obind convert_read]. eexists _, _. split; [reflexivity|]. split; [reflexivity|].
      split; [discriminate|]. split; [discriminate|]. intros p0 E. injection E as <-. exists p'. split; [reflexivity|exact Q].
  - destruct trc as [m|]; [|destruct NN; congruence].
    destruct (obj_read f maxSize sizes Samp t ns nt m M F V HT) as (tb & E1 & A1 & B1). rewrite E1. cbn [option_map obind plo plen] in *.
    destruct (CONV tb m A1 B1) as (m' & E4 & S1 & S2). rewrite E4. cbn [obind].
    eexists _, _. split; [reflexivity|]. split; [discriminate|]. split; [|split; [reflexivity|discriminate]].
    intros m0 E. injection E as <-. exists m'. auto.
Qed.
