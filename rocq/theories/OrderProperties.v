(** Properties C45 and C46: reading and writing traces in any order. *)
From Coq Require Import Reals Lra Permutation Sorted.
From Flocq Require Import Core IEEE754.BinarySingleNaN.
From Verif Require Import Base NumEncModel NumEncSpec NumEncProofs CharEncModel LayoutModel LayoutProofs DataIOModel DataIOProofs
  RuleModel RuleProofs DoubleModel ParamModel ParamProofs HeaderProofs ScalarProofs FileSpec FileModel FileProofs WriteSpec WriteProofs ParamProperties ReadProofs OpenProofs FileProperties.
Open Scope Z_scope.
From Verif Require Import TraceProperties.

(** ---- C45: reads in any order, with repetitions ---- *)
Lemma nodup_groups : forall l base prev n, length base = S n -> nth n base 0 = prev ->
  length (groups_from prev (Z.of_nat n) l) = length l /\
  forall k, (k < length l)%nat -> exists g, nth k (groups_from prev (Z.of_nat n) l) 0 = Z.of_nat g /\
    (g < length (base ++ nodup_from prev l))%nat /\ nth g (base ++ nodup_from prev l) 0 = nth k l 0.
Proof.
  induction l as [|x l IH]; intros base prev n LB NB; [split; [reflexivity|cbn; intros; lia]|]. cbn [groups_from nodup_from]. cbv zeta.
  destruct (Z.eqb_spec x prev) as [->|NE].
  - destruct (IH base prev n LB NB) as (A & B). cbn [length]. split; [lia|]. intros [|k] K.
    + exists n. cbn [nth]. split; [reflexivity|]. split; [rewrite app_length; lia|]. rewrite app_nth1 by lia. exact NB.
    + cbn [nth]. apply B. lia.
  - replace (Z.of_nat n + 1) with (Z.of_nat (S n)) by lia.
    destruct (IH (base ++ [x]) x (S n)) as (A & B); [rewrite app_length, LB; cbn; lia|rewrite app_nth2, LB, Nat.sub_diag by lia; reflexivity|].
    rewrite <- app_assoc in B. cbn [app length] in *. split; [lia|]. intros [|k] K.
    + exists (S n). cbn [nth]. split; [reflexivity|]. split; [rewrite app_length; cbn; lia|]. rewrite app_nth2, LB, Nat.sub_diag by lia. reflexivity.
    + cbn [nth]. apply B. lia.
Qed.
Lemma nodup_in : forall l prev x, In x (nodup_from prev l) -> In x l.
Proof. induction l as [|y l IH]; intros prev x; [intros []|]. cbn [nodup_from]. destruct (y =? prev); [right; eauto|intros [<-|I]; [left; reflexivity|right; eauto]]. Qed.
Lemma scatter_prm_spec sprm skip : wf_param sprm -> forall (js : list (nat * Z)) p,
  wf_param p -> p_rule p = p_rule sprm -> (counts (p_rule sprm) MCopy <> 0 -> full_rule (p_rule sprm)) ->
  NoDup (map fst js) -> (forall x, In x js -> 0 <= snd x < p_sz sprm /\ 0 <= skip + Z.of_nat (fst x) < p_sz p) ->
  exists p', scatter_prm sprm skip js p = Some p' /\ p_rule p' = p_rule p /\ p_sz p' = p_sz p /\
  (forall x m e, In x js -> lookup m (translate (p_rule p)) = Some e -> getPrm (skip + Z.of_nat (fst x)) m p' = getPrm (snd x) m sprm) /\
  (forall i m, 0 <= i < p_sz p -> (forall x, In x js -> i <> skip + Z.of_nat (fst x)) -> getPrm i m p' = getPrm i m p).
Proof.
  intros WS. unfold scatter_prm. induction js as [|x js IH]; intros p WP RR FC ND B.
  - exists p. split; [reflexivity|]. split; [reflexivity|]. split; [reflexivity|]. split; [intros x m e []|reflexivity].
  - cbn [fold_left obind]. inversion ND as [|? ? N1 N2]; subst. destruct (B x (or_introl eq_refl)) as (B1 & B2).
    destruct (same_rule_wf sprm p (snd x) (skip + Z.of_nat (fst x)) WS WP RR FC B1 B2) as (p1 & E1 & R1 & S1 & A1 & _ & U1).
    assert (W1 : wf_param p1) by (exact (shape_wf _ _ (cpyPrm_shape _ _ _ _ _ _ E1) WP)).
    destruct (IH p1 W1 ltac:(congruence) FC N2) as (p' & E2 & R2 & S2 & A2 & U2).
    { intros y Y. rewrite S1. apply B. right. exact Y. }
    exists p'. rewrite E1. split; [exact E2|]. split; [congruence|]. split; [congruence|]. split.
    + intros y m e [<-|Y] L.
      * rewrite U2; [apply (A1 m e); rewrite <- RR; exact L|rewrite S1; exact B2|].
        intros y Y Q. apply N1. apply in_map_iff. exists y. split; [lia|exact Y].
      * apply (A2 y m e Y). rewrite R1. exact L.
    + intros i m I D. rewrite U2 by (first [rewrite S1; exact I|intros y Y; apply D; right; exact Y]).
      apply U1; [exact I|]. apply D. left. reflexivity.
Qed.
Lemma perm_index (idx : list nat) n i : Permutation idx (seq 0 n) -> (i < n)%nat -> exists k, (k < length idx)%nat /\ nth k idx 0%nat = i.
Proof. intros P I. apply (In_nth idx i 0%nat). apply (Permutation_in (l := seq 0 n)); [symmetry; exact P|apply in_seq; lia]. Qed.

(** For any sequence of positions (any order, any repetition, whatever permutation
    the sort of the list returned) entry i is the trace at the i-th position. *)
Theorem C45_non_monotonic_partial :
  forall maxSize sizes rd nt ns f offs idx trc p skip,
  2 * (240 + 4 * ns) <= maxSize -> fits nt ns -> has_traces f nt ns -> file_bytes f -> r_ns rd = ns -> r_format rd <> 1 ->
  offs <> [] -> Forall (fun x => 0 <= x < nt) offs -> Permutation idx (seq 0 (length offs)) ->
  readable (Listed offs) skip (Some p) ->
  exists trc' p', readTraceNonMonotonic maxSize sizes rd offs idx (Some trc) (Some p) skip f = Some (Some trc', Some p') /\
  (forall i k, (i < length offs)%nat -> 0 <= k < ns -> sample trc' (Z.of_nat i * ns + k) = disk_sample f ns (nth i offs 0) k) /\
  (forall a, a < 0 \/ 4 * (ns * Z.of_nat (length offs)) <= a -> trc' a = trc a) /\
  (forall i m e v, (i < length offs)%nat -> lookup m (translate (p_rule p)) = Some e ->
     decode (disk_header f ns (nth i offs 0)) 0 0 e = Some v -> getPrm (skip + Z.of_nat i) m p' = Some v) /\
  (forall i, (i < length offs)%nat -> getPrm (skip + Z.of_nat i) 1 p' = Some (VI (nth i offs 0))).
Proof.
  intros maxSize sizes rd nt ns f offs idx trc p skip M F HT FB E1 E2 NE V PM HP.
  destruct (HP p eq_refl) as (H1 & (H2 & H3) & H4 & H5 & H6). pose proof (held_wf p H1) as WP. pose proof F as (N & _).
  assert (LI : length idx = length offs) by (rewrite (Permutation_length PM), seq_length; reflexivity).
  assert (IB : forall k, (k < length idx)%nat -> (nth k idx 0 < length offs)%nat).
  { intros k K. assert (I : In (nth k idx 0%nat) (seq 0 (length offs))) by (apply (Permutation_in _ PM), nth_In, K). apply in_seq in I. lia. }
  unfold readTraceNonMonotonic. rewrite E1. destruct idx as [|j0 idx']; [destruct offs; [contradiction|discriminate]|].
  remember (j0 :: idx') as idx eqn:EI.
  assert (XS : exists x0 xs, map (fun j => nth j offs 0) idx = x0 :: xs) by (subst idx; cbn [map]; eauto).
  destruct XS as (x0 & xs & XS). rewrite XS.
  set (nd := x0 :: nodup_from x0 xs). set (gs := 0 :: groups_from x0 0 xs).
  destruct (nodup_groups xs [x0] x0 0 eq_refl eq_refl) as (GL & GN). cbn [app] in GN. fold nd in GN. change (Z.of_nat 0) with 0 in *.
  assert (LX : length (x0 :: xs) = length offs) by (rewrite <- XS, map_length; exact LI).
  assert (GK : forall k, (k < length offs)%nat -> exists g, nth k gs 0 = Z.of_nat g /\ (g < length nd)%nat /\ nth g nd 0 = nth (nth k idx 0%nat) offs 0).
  { intros k K. assert (XK : nth k (x0 :: xs) 0 = nth (nth k idx 0%nat) offs 0).
    { rewrite <- XS. rewrite (nth_indep _ 0 (nth 0 offs 0)) by (rewrite map_length; lia). rewrite (map_nth (fun j => nth j offs 0)). reflexivity. }
    rewrite <- XK. destruct k as [|k]; [exists 0%nat; cbn; split; [reflexivity|split; [lia|reflexivity]]|].
    cbn [length] in LX. apply GN. lia. }
  assert (GLN : length gs = length offs) by (unfold gs; cbn [length] in *; lia).
  set (js := List.combine idx gs).
  assert (JL : length js = length offs) by (unfold js; rewrite combine_length; lia).
  assert (JN : forall k, (k < length offs)%nat -> nth k js (0%nat, 0) = (nth k idx 0%nat, nth k gs 0)) by (intros; unfold js; apply combine_nth; lia).
  assert (JF : map fst js = idx).
  { unfold js. clear -LI GLN. assert (L : length idx = length gs) by lia. clearbody gs. clear LI GLN. revert gs L. induction idx as [|a l IH]; intros [|g gs] L; try discriminate; [reflexivity|].
    cbn [List.combine map fst]. f_equal. apply IH. cbn in L. lia. }
  assert (JI : forall x, In x js -> exists k, (k < length offs)%nat /\ x = (nth k idx 0%nat, nth k gs 0)).
  { intros x X. apply (In_nth js x (0%nat, 0)) in X. destruct X as (k & K & <-). rewrite JL in K. exists k. split; [exact K|apply JN; exact K]. }
  assert (NDX : NoDup idx) by (apply (Permutation_NoDup (l := seq 0 (length offs))); [symmetry; exact PM|apply seq_NoDup]).
  (* the one read *)
  set (sp := newParam (p_rule p) (Z.of_nat (length nd))).
  assert (WSP : wf_param sp) by (apply newParam_wf; [apply WP|lia]).
  assert (VN : tvalid nt (Listed nd)).
  { cbn [tvalid]. apply Forall_forall. intros x X. assert (X' : In x (x0 :: xs)) by (destruct X as [<-|X]; [left; reflexivity|right; apply (nodup_in xs x0); exact X]).
    rewrite <- XS in X'. apply in_map_iff in X'. destruct X' as (j & <- & J). rewrite Forall_forall in V. apply V, nth_In.
    apply (In_nth idx j 0%nat) in J. destruct J as (k & K & <-). apply IB. exact K. }
  destruct (read_spec maxSize sizes (r_format rd) ns nt (Listed nd) (Some (fun _ => 0)) (Some sp) 0 f M F VN HT) as (t' & q' & R & _ & A & _ & B).
  { intros; apply FB. } { exact E2. } { left; discriminate. }
  { intros q Q. injection Q as <-. split; [exact WSP|]. split; [exact H2|]. split; [exact H3|]. split; [exact H4|]. split; [lia|]. cbn [tcount]. unfold sp. cbn [p_sz newParam]. lia. }
  cbn [option_map]. fold nd. fold gs. fold js. fold sp. rewrite R. cbn [obind]. clear R.
  destruct (A _ eq_refl) as (sm & -> & SS & _). destruct (B sp eq_refl) as (sq & -> & WQ & RQ & SQ & DQ & LQ & _). cbn [obind]. clear A B.
  assert (SZQ : p_sz sq = Z.of_nat (length nd)) by (rewrite SQ; reflexivity).
  destruct (scatter_prm_spec sq skip WQ js p WP) as (p' & E & RP & SP & AP & _).
  { rewrite RQ. reflexivity. } { intros _. rewrite RQ. exact H2. } { rewrite JF. exact NDX. }
  { intros x X. destruct (JI x X) as (k & K & ->). cbn [fst snd]. destruct (GK k K) as (g & -> & G & _). specialize (IB k ltac:(lia)). cbn [tcount] in H6. lia. }
  rewrite E. cbn [obind]. do 2 eexists. split; [reflexivity|].
  assert (INJ : forall i, (i < length offs)%nat -> exists k g, (k < length offs)%nat /\ nth k idx 0%nat = i /\ nth k gs 0 = Z.of_nat g /\ (g < length nd)%nat /\ nth g nd 0 = nth i offs 0 /\ In (i, Z.of_nat g) js).
  { intros i I. destruct (perm_index idx _ i PM I) as (k & K & KE). rewrite LI in K. destruct (GK k K) as (g & G1 & G2 & G3). rewrite KE in G3.
    exists k, g. repeat (split; [assumption|]). replace (i, Z.of_nat g) with (nth k js (0%nat, 0)) by (rewrite JN, KE, G1 by exact K; reflexivity). apply nth_In. lia. }
  unfold scatter_trc.
  destruct (copies_spec (fun jn : nat * Z => 4 * (Z.of_nat (fst jn) * ns)) (fun jn => 4 * (snd jn * ns)) (fun _ => 4 * ns) sm js trc) as (CA & CB).
  { intros a b x Ia Ib Xa Xb. destruct (JI a Ia) as (ka & Ka & ->). destruct (JI b Ib) as (kb & Kb & ->). cbn [fst snd] in *.
    assert (EQ : Z.of_nat (nth ka idx 0%nat) = Z.of_nat (nth kb idx 0%nat)) by (apply (stride_same (4 * ns) _ _ x 0 (4 * ns)); lia).
    assert (ka = kb) as -> by (apply (proj1 (NoDup_nth idx 0%nat) NDX); lia). reflexivity. }
  split; [|split; [|split]].
  - intros i k I K. destruct (INJ i I) as (k0 & g & _ & _ & _ & G2 & G3 & J).
    assert (X : forall b, 0 <= b < 4 -> fold_left (fun m (jn : nat * Z) => copy_bytes m (4 * (Z.of_nat (fst jn) * ns)) sm (4 * (snd jn * ns)) (4 * ns)) js trc (4 * (Z.of_nat i * ns + k) + b) = sm (4 * (Z.of_nat g * ns + k) + b)).
    { intros b Hb. rewrite (CA (i, Z.of_nat g)) by (first [exact J|cbn [fst snd]; lia]). cbn [fst snd]. f_equal. lia. }
    unfold sample, le32. pose proof (X 0 ltac:(lia)) as X0. rewrite !Z.add_0_r in X0. rewrite X0, !X by lia.
    specialize (SS (Z.of_nat g) k). cbn [tcount tpos] in SS. rewrite Nat2Z.id in SS. rewrite G3 in SS. apply SS; lia.
  - intros a Ha. apply CB. intros x X. destruct (JI x X) as (k & K & ->). cbn [fst snd]. specialize (IB k ltac:(lia)). intros Q.
    assert (0 <= Z.of_nat (nth k idx 0%nat) * ns) by (apply Z.mul_nonneg_nonneg; lia).
    assert ((Z.of_nat (nth k idx 0%nat) + 1) * ns <= Z.of_nat (length offs) * ns) by (apply Z.mul_le_mono_nonneg_r; lia). lia.
  - intros i m e v I L DV. destruct (INJ i I) as (k0 & g & _ & _ & _ & G2 & G3 & J). pose proof (AP _ m e J L) as Q. cbn [fst snd] in Q. rewrite Q.
    specialize (DQ (Z.of_nat g) m e v). cbn [tcount tpos] in DQ. rewrite Nat2Z.id, G3, Z.add_0_r in DQ. apply DQ; [lia|exact L|exact DV].
  - intros i I. destruct (INJ i I) as (k0 & g & _ & _ & _ & G2 & G3 & J). destruct H4 as (le & LL & _). pose proof (AP _ 1 le J LL) as Q. cbn [fst snd] in Q. rewrite Q.
    specialize (LQ (Z.of_nat g)). cbn [tcount tpos] in LQ. rewrite Nat2Z.id, G3, Z.add_0_r in LQ. apply LQ. lia.
Qed.
Print Assumptions C45_non_monotonic_partial.
(** The file view of that one read is increasing, as MPI requires, when the
    permutation sorts the positions. *)
Lemma nodup_sorted : forall l prev, StronglySorted Z.le (prev :: l) -> StronglySorted Z.lt (prev :: nodup_from prev l).
Proof.
  induction l as [|x l IH]; intros prev S; [repeat constructor|]. inversion S as [|? ? S1 F1]; subst. cbn [nodup_from].
  inversion F1; subst. destruct (Z.eqb_spec x prev) as [->|NE]; [apply IH; exact S1|]. specialize (IH x S1). constructor; [exact IH|].
  inversion IH as [|? ? _ F2]; subst. constructor; [lia|]. apply Forall_forall. intros y Y. rewrite Forall_forall in F2. specialize (F2 y Y). lia.
Qed.
Theorem C45_view_increasing :
  forall offs idx x0 xs, map (fun j => nth j offs 0) idx = x0 :: xs -> StronglySorted Z.le (x0 :: xs) ->
  StronglySorted Z.lt (x0 :: nodup_from x0 xs).
Proof. intros offs idx x0 xs _ S. apply nodup_sorted. exact S. Qed.
Print Assumptions C45_view_increasing.
Example C45_nonvacuous : let offs := [4; 1; 4] in let idx := [1; 0; 2]%nat in
  Permutation idx (seq 0 (length offs)) /\ map (fun j => nth j offs 0) idx = [1; 4; 4] /\ StronglySorted Z.le [1; 4; 4] /\
  Forall (fun x => 0 <= x < 5) offs /\ readable (Listed offs) 2 (Some (newParam demo_rule 5)).
Proof.
  cbv zeta. split; [cbn; apply perm_swap|]. split; [reflexivity|]. split; [repeat constructor; lia|]. split; [repeat constructor; lia|apply C49_nonvacuous].
Qed.
(** An empty list, and a call without parameter set, are undefined behaviour. *)
Theorem C45_empty_refuted : forall maxSize sizes rd trc prm skip f, readTraceNonMonotonic maxSize sizes rd [] [] trc prm skip f = None.
Proof. reflexivity. Qed.
Print Assumptions C45_empty_refuted.
Theorem C45_no_metadata_refuted : exists offs idx, Permutation idx (seq 0 (length offs)) /\ offs = [1; 0] /\
  forall maxSize sizes rd trc skip f, readTraceNonMonotonic maxSize sizes rd offs idx trc None skip f = None.
Proof. exists [1; 0], [1; 0]%nat. split; [apply perm_swap|]. split; [reflexivity|]. intros. reflexivity. Qed.
Print Assumptions C45_no_metadata_refuted.

(** ---- C46: lists ---- *)
(** Every trace of every list that ends with its largest position is in the closed
    file (well_behaved asks for that order). *)
Theorem C46_lists_counted_partial :
  forall maxSize p h f0 f' nt ns maxSize' sizes rd r sz l trc prm skip i,
  written_file maxSize p h f0 f' nt ns -> 3600 <= maxSize' -> open_file maxSize' sizes f' = Some rd ->
  In (r, WTrace sz (Listed l) trc prm skip) h -> In i l -> 0 <= i < r_nt rd.
Proof.
  intros maxSize p h f0 f' nt ns maxSize' sizes rd r sz l trc prm skip i W M O IH IL.
  destruct (C40_header_round_trip_partial _ _ _ _ _ _ _ maxSize' sizes W M) as (rd' & O' & E1 & E2 & _). rewrite O in O'. injection O' as <-. rewrite E2.
  destruct W as [P _ F FB RK WB AW OK _ _]. destruct (history_op _ _ _ _ _ OK IH) as (w & (_ & (V & _) & _)).
  pose proof (write_end_asked h p r _ IH (RK _ IH)) as A. cbn [write_end] in A. rewrite Forall_forall in V. specialize (V i IL).
  pose proof (zmax_in (map (Z.add 1) l) (1 + i) (in_map _ _ _ IL)). lia.
Qed.
Print Assumptions C46_lists_counted_partial.
Example C46_nonvacuous : exists f', written_file 4000 2 (demo us_250) empty_file f' 3 2 /\ In (1%nat, WTrace [1] (Listed [0; 2]) (Some (demo_mem 1)) None 0) (demo us_250).
Proof. destruct C39_nonvacuous as (f' & W & _). exists f'. split; [exact W|]. do 4 right. left. reflexivity. Qed.
(** A list in another order loses traces: [5; 0] is closed as a file of one trace. *)
Theorem C46_unsorted_list_refuted :
  exists h f', write_file 4000 1 h empty_file = Some f' /\ In (0%nat, WTrace [] (Listed [5; 0]) (Some (demo_mem 3)) None 0) h /\
  w_err (rank_state h 0) = false /\ fsize f' = 3600 + 1 * (240 + 4 * 1).
Proof.
  set (h := [(0%nat, WNs 1); (0%nat, WTrace [] (Listed [5; 0]) (Some (demo_mem 3)) None 0)]).
  assert (H : option_map fsize (write_file 4000 1 h empty_file) = Some 3844) by (vm_compute; reflexivity).
  destruct (write_file 4000 1 h empty_file) as [f'|] eqn:E; [|discriminate]. exists h, f'. split; [exact E|].
  split; [right; left; reflexivity|]. split; [reflexivity|]. injection H as ->. reflexivity.
Qed.
Print Assumptions C46_unsorted_list_refuted.

