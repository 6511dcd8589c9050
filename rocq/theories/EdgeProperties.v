(** C09, C32, C83: what is true where the property as stated is not. *)
From Flocq Require Import Core IEEE754.BinarySingleNaN.
From Verif Require Import Base NumEncModel NumEncSpec NumEncProofs LayoutModel LayoutProofs DataIOModel DataIOProofs RuleModel RuleProofs RuleProperties DoubleModel ParamModel ParamProofs HeaderProofs FileSpec FileModel FileProofs ParamProperties CrashProperties FloatModel FourDModel FourDProofs FourDProperties FourDEdgeProperties.
Import ListNotations.
Open Scope Z_scope.

(** ---- C32: integers of any size in a header field ---- *)
(** Whatever the value (C31_write_succeeds: without coordinates the write always ends), the value read back is the
    one in the range of the field that differs from it by a multiple of 2^32 (2^16).  It
    is the value written exactly when that fits. *)
Theorem C32_read_back_partial :
  forall p q sz buf buf' stride skip skip2,
  held p -> held q -> p_rule q = p_rule p -> usable (p_rule p) ->
  0 <= stride -> 0 <= sz -> 0 <= skip -> skip + sz <= p_sz p -> 0 <= skip2 -> skip2 + sz <= p_sz q ->
  insertParam sz p buf stride skip = Some buf' ->
  exists q', extractParam sz buf' 0 q stride skip2 = Some q' /\
  forall i m e z, 0 <= i < sz -> lookup m (translate (p_rule p)) = Some e -> getPrm (i + skip) m p = Some (VI z) ->
    (e_type e = MLong -> exists z', getPrm (i + skip2) m q' = Some (VI z') /\ -2147483648 <= z' < 2147483648 /\ (z' - z) mod 4294967296 = 0 /\ (z' = z <-> -2147483648 <= z < 2147483648)) /\
    (e_type e = MShort -> exists z', getPrm (i + skip2) m q' = Some (VI z') /\ -32768 <= z' < 32768 /\ (z' - z) mod 65536 = 0 /\ (z' = z <-> -32768 <= z < 32768)).
Proof.
  intros p q sz buf buf' stride skip skip2 Hp Hq R US Hs Hz Hk Hle Hk2 Hle2 E. apply held_wf in Hp, Hq. destruct US as (F & OK).
  destruct (insert_extract _ _ _ _ _ _ q skip2 Hp Hq R F OK Hs Hz Hk Hle Hk2 Hle2 E) as (q' & E' & _ & _ & _ & A). exists q'. split; [exact E'|].
  intros i m e z Hi L V. specialize (A i m e Hi L). split; intros T; rewrite T in A;
    (rewrite (getPrm_at p (i + skip) m e Hp L) in V by (first [lia|rewrite T; discriminate])); injection V as V; rewrite T in V; rewrite V in A; cbn [int_of] in A; eexists; (split; [exact A|]).
  - assert (B : -2147483648 <= s32 z <= 2147483647) by (unfold s32, two32; clear; Z.div_mod_to_equations; lia). assert (S : (s32 z - z) mod 4294967296 = 0).
    { unfold s32, two32. clear. Z.div_mod_to_equations. lia. }
    split; [lia|]. split; [exact S|]. split; [intros Q; lia|]. intros Q. apply Z.mod_divide in S; [|lia]. destruct S as (k & S). lia.
  - assert (B : -32768 <= s16 z <= 32767) by (unfold s16; clear; Z.div_mod_to_equations; lia). assert (S : (s16 z - z) mod 65536 = 0).
    { unfold s16. clear. Z.div_mod_to_equations. lia. }
    split; [lia|]. split; [exact S|]. split; [intros Q; lia|]. intros Q. apply Z.mod_divide in S; [|lia]. destruct S as (k & S). lia.
Qed.
Print Assumptions C32_read_back_partial.
Example C32_nonvacuous :
  let p := newParam (newRule [26; 9] true false false) 3 in
  held p /\ usable (p_rule p) /\
  obind (setPrm 2 26 (VI 4294967301) p) (fun p => obind (setPrm 2 9 (VI 32768) p) (fun p =>
  obind (insertParam 2 p (fun _ => 0) 40 1) (fun b => obind (extractParam 2 b 0 (newParam (p_rule p) 2) 40 0) (fun q =>
    Some (getPrm 1 26 q, getPrm 1 9 q))))) = Some (Some (VI 5), Some (VI (-32768))).
Proof.
  cbv zeta. split; [apply held_new; [apply reach_new|lia]|]. split; [apply predefined_usable, pre_new|]. vm_compute. reflexivity.
Qed.

(** ---- C09: every sample of an IBM file is read as one half ---- *)
(** Whatever word is stored, the conversion gives 0.5 or is undefined. *)
Lemma ibm_read_half w v : ibm_read w = Some v -> v = 1056964608.
Proof.
  unfold ibm_read. assert (J : exists j, 0 <= j < 8 /\ double_low w = j * 536870912).
  { unfold double_low. cbv zeta. set (m := w mod 8388608). assert (M0 : 0 <= m < 8388608) by (apply Z.mod_pos_bound; lia).
    assert (G : forall a, 0 <= a -> exists j, 0 <= j < 8 /\ (a * 2 ^ 29) mod two32 = j * 536870912).
    { intros a A. exists (a mod 8). split; [apply Z.mod_pos_bound; lia|]. change two32 with (8 * 2 ^ 29). rewrite Z.mul_mod_distr_r by lia. reflexivity. }
    destruct ((_ =? 0) && negb (m =? 0)) eqn:E; [|apply G; lia].
    apply andb_true_iff in E. destruct E as (_ & E). assert (0 < m) by (destruct (Z.eqb_spec m 0); [discriminate E|lia]).
    assert (L : Z.log2 m < 23) by (apply Z.log2_lt_pow2; [assumption|exact (proj2 M0)]).
    rewrite Z.pow_add_r by lia. rewrite (Z.mul_comm (2 ^ 29)), Z.mul_assoc. apply G. apply Z.mul_nonneg_nonneg; [lia|apply Z.pow_nonneg; lia]. }
  destruct J as (j & J & ->). assert (Q : j = 0 \/ j = 1 \/ j = 2 \/ j = 3 \/ j = 4 \/ j = 5 \/ j = 6 \/ j = 7) by lia.
  intros E. repeat destruct Q as [Q|Q]; subst j; vm_compute in E; try discriminate; injection E as <-; reflexivity.
Qed.

Lemma ibm_step_some m i m' : ibm_step (Some m) i = Some m' -> m' = put m (4 * i, le_bytes 1056964608).
Proof.
  unfold ibm_step. cbn [obind]. intros E. pose proof (ibm_read_half (le32 m (4 * i))) as H. unfold ibm_read in H. destruct (le_bytes (double_low _)) as [|b0 [|b1 [|b2 [|b3 [|? ?]]]]]; try discriminate E.
  destruct (from_IBM_to_float true b0 b1 b2 b3) as [v|]; [|discriminate E]. cbn [obind] in E. rewrite (H v eq_refl) in E. congruence.
Qed.
Lemma put_half m i x : put m (4 * i, le_bytes 1056964608) x = if (4 * i <=? x) && (x <? 4 * i + 4) then nth (Z.to_nat (x - 4 * i)) [0; 0; 0; 63] 0 else m x.
Proof. rewrite put4 by reflexivity. reflexivity. Qed.
Lemma fold_ibm_none l : fold_left ibm_step l None = None.
Proof. induction l as [|i l IH]; [reflexivity|]. exact IH. Qed.
Lemma ibm_all n : forall m m', from_disk_ibm (Z.of_nat n) m = Some m' ->
  (forall i, 0 <= i < Z.of_nat n -> sample m' i = 1056964608) /\ (forall a, a < 0 \/ 4 * Z.of_nat n <= a -> m' a = m a).
Proof.
  unfold from_disk_ibm. induction n as [|n IH]; intros m m' H.
  - injection H as <-. split; [intros; lia|reflexivity].
  - rewrite zr_nat, zrange_S, fold_left_app, <- zr_nat in H. destruct (fold_left ibm_step (zr (Z.of_nat n)) (Some m)) as [m1|] eqn:E; [|discriminate H].
    destruct (IH _ _ E) as (A & B). cbn [fold_left] in H. apply ibm_step_some in H. subst m'. split.
    + intros i I. destruct (Z.eq_dec i (Z.of_nat n)) as [Q|Q].
      * subst i. unfold sample, le32. rewrite !put_half. set (k := Z.of_nat n).
        replace ((4 * k <=? 4 * k) && (4 * k <? 4 * k + 4)) with true by lia. replace ((4 * k <=? 4 * k + 1) && (4 * k + 1 <? 4 * k + 4)) with true by lia.
        replace ((4 * k <=? 4 * k + 2) && (4 * k + 2 <? 4 * k + 4)) with true by lia. replace ((4 * k <=? 4 * k + 3) && (4 * k + 3 <? 4 * k + 4)) with true by lia.
        replace (4 * k - 4 * k) with 0 by lia. replace (4 * k + 1 - 4 * k) with 1 by lia. replace (4 * k + 2 - 4 * k) with 2 by lia. replace (4 * k + 3 - 4 * k) with 3 by lia. reflexivity.
      * transitivity (sample m1 i); [|apply A; lia]. unfold sample, le32. rewrite !put_half. set (k := Z.of_nat n) in *.
        replace ((4 * k <=? 4 * i) && (4 * i <? 4 * k + 4)) with false by lia. replace ((4 * k <=? 4 * i + 1) && (4 * i + 1 <? 4 * k + 4)) with false by lia.
        replace ((4 * k <=? 4 * i + 2) && (4 * i + 2 <? 4 * k + 4)) with false by lia. replace ((4 * k <=? 4 * i + 3) && (4 * i + 3 <? 4 * k + 4)) with false by lia. reflexivity.
    + intros a Ha. rewrite put_half. replace ((4 * Z.of_nat n <=? a) && (a <? 4 * Z.of_nat n + 4)) with false by lia. apply B. lia.
Qed.
(** Whatever the file holds, whichever traces are asked for and with or without their
    parameters: every sample that a read of an IBM file returns is 0.5. *)
Theorem C09_always_half_refuted : forall maxSize sizes ns t m prm skip f m' q, 0 <= ns -> 0 <= tcount t ->
  readTraceT maxSize sizes 1 ns t (Some m) prm skip f = Some (Some m', q) ->
  forall i, 0 <= i < ns * tcount t -> sample m' i = 1056964608.
Proof.
  intros maxSize sizes ns t m prm skip f m' q N T H i I. unfold readTraceT in H.
  match type of H with obind ?X _ = _ => destruct X as [[tb p]|] end; [|discriminate H]. cbn [obind] in H.
  destruct tb as [tb|]; [|discriminate H]. cbn [convert_read] in H. change (1 =? 1) with true in H. cbv iota in H.
  destruct (from_disk_ibm (ns * tcount t) tb) as [x|] eqn:E; [|discriminate H]. cbn [option_map obind] in H.
  assert (x = m') by congruence. subst x. rewrite <- (Z2Nat.id (ns * tcount t)) in E, I by lia. exact (proj1 (ibm_all _ _ _ E) i I).
Qed.
Print Assumptions C09_always_half_refuted.
(** So the only samples that are read correctly are those whose own conversion is 0.5;
    a file of them is read without an undefined step. *)
Lemma ibm_runs n : forall m, (forall i, 0 <= i < Z.of_nat n -> le32 m (4 * i) = 32832) -> exists m', from_disk_ibm (Z.of_nat n) m = Some m'.
Proof.
  unfold from_disk_ibm. induction n as [|n IH]; intros m H; [exists m; reflexivity|].
  rewrite zr_nat, zrange_S, fold_left_app, <- zr_nat. destruct (IH m) as (m1 & E); [intros; apply H; lia|]. rewrite E. cbn [fold_left].
  assert (W : le32 m1 (4 * Z.of_nat n) = 32832).
  { rewrite <- (H (Z.of_nat n)) by lia. destruct (ibm_all n m m1 E) as (_ & B). unfold le32. rewrite !B by lia. reflexivity. }
  unfold ibm_step. cbn [obind]. rewrite W. eexists. vm_compute. reflexivity.
Qed.
Theorem C09_half_partial : forall maxSize sizes ns nt t m skip f,
  2 * (240 + 4 * ns) <= maxSize -> fits nt ns -> tvalid nt t -> has_traces f nt ns ->
  (forall i k, 0 <= i < tcount t -> 0 <= k < ns -> disk_sample f ns (tpos t i) k = 1082130432) ->   (* 40 80 00 00 *)
  (forall i j, 0 <= i < tcount t -> 0 <= j < 4 * ns -> is_byte (fbyte f (trace_at ns (tpos t i) + 240 + j))) ->
  from_IBM_to_float true 64 128 0 0 = Some 1056964608 /\
  exists m', readTraceT maxSize sizes 1 ns t (Some m) None skip f = Some (Some m', None) /\
  (forall i, 0 <= i < ns * tcount t -> sample m' i = 1056964608) /\
  (forall a, a < 0 \/ 4 * (ns * tcount t) <= a -> m' a = m a).
Proof.
  intros maxSize sizes ns nt t m skip f M F V HT D FB. split; [reflexivity|].
  destruct (obj_read f maxSize sizes Samp t ns nt m M F V HT) as (tb & E & A & O). cbn [plen plo] in A, O.
  pose proof F as (N & _). pose proof (tcount_nonneg nt t V) as TN. assert (NS0 : 0 <= ns * tcount t) by (apply Z.mul_nonneg_nonneg; lia).
  destruct (ibm_runs (Z.to_nat (ns * tcount t)) tb) as (m' & R).
  { rewrite Z2Nat.id by exact NS0. intros x X. destruct (split_index (tcount t) ns x TN N ltac:(lia)) as (_ & i & k & I & K & Q).
    assert (Y : forall b, 0 <= b < 4 -> tb (4 * x + b) = fbyte f (trace_at ns (tpos t i) + 240 + 4 * k + b)).
    { intros b Hb. replace (4 * x + b) with (4 * ns * i + (4 * k + b)) by lia. rewrite A by lia. f_equal. lia. }
    pose proof (Y 0 ltac:(lia)) as Y0. rewrite !Z.add_0_r in Y0. unfold le32. rewrite Y0, !Y by lia.
    specialize (D i k I K). unfold disk_sample in D. cbv zeta in D.
    assert (BB : forall b, 0 <= b < 4 -> is_byte (fbyte f (trace_at ns (tpos t i) + 240 + 4 * k + b))).
    { intros b Hb. rewrite <- Z.add_assoc. apply FB; [exact I|]. lia. }
    pose proof (BB 0 ltac:(lia)) as B0. pose proof (BB 1 ltac:(lia)) as B1. pose proof (BB 2 ltac:(lia)) as B2. pose proof (BB 3 ltac:(lia)) as B3.
    rewrite Z.add_0_r in B0. revert D B0 B1 B2 B3. clear. unfold is_byte. intros. lia. }
  rewrite Z2Nat.id in R by exact NS0. exists m'. unfold readTraceT. rewrite E. cbn [option_map obind convert_read]. change (1 =? 1) with true. cbv iota. rewrite R. cbn [option_map obind]. split; [reflexivity|].
  rewrite <- (Z2Nat.id (ns * tcount t)) in R |- * by exact NS0. destruct (ibm_all _ _ _ R) as (X & Y). split; [exact X|]. intros a Ha. rewrite Y by exact Ha. apply O. rewrite Z2Nat.id in Ha by exact NS0. lia.
Qed.
Print Assumptions C09_half_partial.
Example C09_half_nonvacuous : let f := mkFile (3600 + 2 * 248) (fun q => if Z.even (q / 2) then if Z.even q then 64 else 128 else 0) in
  has_traces f 2 2 /\ fits 2 2 /\ tvalid 2 (Range 0 2) /\ (forall i k, 0 <= i < 2 -> 0 <= k < 2 -> disk_sample f 2 i k = 1082130432) /\
  obind (readTraceT 4000 [] 1 2 (Range 0 2) (Some (fun _ => 0)) None 0 f) (fun r => match r with (Some m, None) => Some (map (sample m) [0; 1; 2; 3; 4]) | _ => None end) = Some [1056964608; 1056964608; 1056964608; 1056964608; 0].
Proof.
  cbv zeta. split; [vm_compute; congruence|]. split; [unfold fits; vm_compute; intuition congruence|]. split; [vm_compute; intuition congruence|]. split; [|vm_compute; reflexivity].
  intros i k I K. assert (i = 0 \/ i = 1) as [Q|Q] by lia; assert (k = 0 \/ k = 1) as [Q'|Q'] by lia; subst; reflexivity.
Qed.

(** ---- C83: when no coordinates have to be fetched ---- *)
(** If no process holds a coordinate within reach, nothing is fetched and the matches
    are those of the first comparison, whether or not the windows are checked. *)
Lemma no_actives f (cs : list (list shot)) (es : list (F * F)) : (forall e, In e es -> f e = false) -> map fst (filter (fun ce => f (snd ce)) (List.combine cs es)) = [].
Proof.
  revert es. induction cs as [|c cs IH]; intros [|e es] H; try reflexivity. cbn [List.combine filter snd]. rewrite (H e (or_introl eq_refl)). apply IH. intros x X. apply H. right. exact X.
Qed.
Theorem C83_no_fetch_partial : forall checked ix dm c1 mine cs es lmin lmax m,
  omap extent cs = Some es -> extent c1 = Some (lmin, lmax) -> initUpdate ix c1 mine = Some m ->
  (forall e, In e es -> active dm lmin lmax e = false) ->
  calc4DBin checked ix dm c1 mine cs = Some m.
Proof.
  intros checked ix dm c1 mine cs es lmin lmax m O E I H. unfold calc4DBin. rewrite O. cbn [obind]. rewrite E. cbn [obind]. rewrite I. cbn [obind]. rewrite (no_actives (active dm lmin lmax)) by exact H. reflexivity.
Qed.
Print Assumptions C83_no_fetch_partial.
Example C83_no_fetch_nonvacuous : let c1 := [at_ 0 100 0 110 0; at_ 1 105 0 115 0] in let c2 := [at_ 2 4 0 14 0; at_ 3 6 0 16 0] in let dm := f_of_Z 4 in
  (match omap extent [c2], extent c1, initUpdate false c1 c2 with Some es, Some (a, b), Some _ => forallb (fun e => negb (active dm a b e)) es | _, _, _ => false end) = true /\
  option_map (map fst) (calc4DBin true false dm c1 c2 [c2]) = Some [2; 2].
Proof. split; vm_compute; reflexivity. Qed.
