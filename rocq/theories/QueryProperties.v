(** C94, C95. *)
From Coq Require Import Lia.
From Verif Require Import Base RuleModel DataIOModel RuleProofs ParamModel SignalModel QueryModel.
Import ListNotations.
Open Scope Z_scope.

(** ---- C94: looking up entries ---- *)
(** Looking up an entry the rule has changes nothing. *)
Theorem C94_present_partial : forall q m e, lookup m (translate (q_rule q)) = Some e -> q_get m q = (Some e, q).
Proof. intros q m e H. unfold q_get. rewrite H. reflexivity. Qed.
Print Assumptions C94_present_partial.

(** The same history without the lookups. *)
Definition without_lookups (os : list qop) : list op :=
  flat_map (fun o => match o with
    | QGet _ => [] | QAdd m => [OAdd m] | QCopy => [OCopy] | QRm m => [ORm m] | QExtent => [OExtent]
    | QEntry MLong m l _ => [OLong m l] | QEntry MShort m l _ => [OShort m l] | QEntry MFloat m l s => [OFloat m l s]
    | QEntry MIndex m _ _ => [OIndex m] | QEntry MCopy _ _ _ => [] end) os.
(** Histories in which only entries that are there are looked up; entries are made by the
    four functions for that. *)
Fixpoint asks_present (os : list qop) (r : rule) : Prop :=
  match os with
  | [] => True
  | o :: os => (match o with QGet m => lookup m (translate r) <> None | QEntry MCopy _ _ _ => False
                | QEntry MLong _ _ s | QEntry MShort _ _ s => s = 0 | QEntry MIndex _ l s => l = 0 /\ s = 0 | _ => True end)
               /\ asks_present os (fold_left run_op (without_lookups [o]) r)
  end.
(** Then the lookups make no difference and nothing is undefined. *)
Theorem C94_histories_partial : forall os r, asks_present os r -> q_run os (mkQ r []) = Done (mkQ (fold_left run_op (without_lookups os) r) []).
Proof.
  induction os as [|o os IH]; intros r H; [reflexivity|]. destruct H as (H1 & H2). specialize (IH _ H2).
  assert (ST : q_step (mkQ r []) o = Done (mkQ (fold_left run_op (without_lookups [o]) r) [])).
  { destruct o as [m|m|t m loc scal| |m|]; cbn [q_step without_lookups flat_map app fold_left run_op].
    - unfold q_get. cbn [q_rule]. destruct (lookup m (translate r)); [reflexivity|congruence].
    - reflexivity.
    - unfold q_entry, q_rm. cbn [is_null q_null existsb q_rule clean]. assert (RM : forall e, lookup m (translate r) = Some e -> add_entry t m loc scal (rmRule m r) = add_entry t m loc scal r).
      { intros e L. unfold add_entry. assert (lookup m (translate (rmRule m r)) = None) as N by (unfold rmRule; rewrite L; cbn [translate]; clear; generalize (translate r) as l; intros l; induction l as [|(k & x) l IH]; [reflexivity|]; cbn [erase filter fst]; destruct (Z.eqb_spec k m); cbn [negb map]; [exact IH|]; cbn [lookup map fst]; destruct (Z.eqb_spec k m); [congruence|exact IH]).
        assert (rmRule m (rmRule m r) = rmRule m r) as -> by (unfold rmRule at 1; rewrite N; reflexivity). reflexivity. }
      destruct (lookup m (translate r)) as [e|] eqn:L; cbn [obnd q_rule q_null]; [rewrite (RM e eq_refl)|]; destruct t; cbn [fold_left run_op]; try contradiction H1; try (rewrite H1; reflexivity); try (destruct H1 as (-> & ->); reflexivity); reflexivity.
    - unfold q_copy. cbn [q_rule q_null filter]. unfold addCopy. destruct (counts r MCopy =? 0); reflexivity.
    - unfold q_rm. cbn [is_null q_null existsb q_rule clean]. unfold rmRule. destruct (lookup m (translate r)); reflexivity.
    - unfold q_extent. cbn [q_rule clean q_null negb]. rewrite andb_false_r. reflexivity. }
  cbn [q_run]. rewrite ST. cbn [obnd]. rewrite IH. do 2 f_equal. symmetry. cbn [without_lookups flat_map]. rewrite app_nil_r. apply fold_left_app.
Qed.
Print Assumptions C94_histories_partial.

(** C94 (part): looking up the copy entry of a rule without one does no harm if the copy
    entry is added next. *)
Theorem C94_copy_partial : forall r, lookup META_COPY (translate r) = None -> counts r MCopy = 0 ->
  q_copy (snd (q_get META_COPY (mkQ r []))) = q_copy (mkQ r []) /\ clean (q_copy (snd (q_get META_COPY (mkQ r [])))) = true.
Proof.
  intros r L C. unfold q_get. cbn [q_rule]. rewrite L. cbn [snd is_null q_null existsb]. unfold q_copy. cbn [q_rule q_null]. rewrite C, Z.eqb_refl. cbn [filter]. rewrite Z.eqb_refl. cbn [negb]. split; reflexivity.
Qed.
Print Assumptions C94_copy_partial.
Example ex_C94_copy : lookup META_COPY (translate (newRule [20] true false false)) = None /\ counts (newRule [20] true false false) MCopy = 0.
Proof. split; reflexivity. Qed.

(** Looking up an entry the rule does not have: it cannot be added any more (the call says
    it is there already), removing it is undefined, and so are working out the extent and
    reading or writing headers. *)
Theorem C94_absent_refuted : forall q m, lookup m (translate (q_rule q)) = None -> let q' := snd (q_get m q) in
  fst (q_get m q) = None /\ q_add m q' = (false, q') /\ fst (q_get m q') = None /\ q_rm m q' = Undefined /\
  (forall t loc scal, q_entry t m loc scal q' = Undefined) /\
  (r_full (q_rule q) = false -> r_bad (q_rule q) = true -> q_extent q' = Undefined) /\
  (forall sz mm b0 p stride skip, 0 < sz -> q_extract sz mm b0 q' p stride skip = Undefined) /\
  (forall sz p b stride skip, 0 < sz -> q_insert sz q' p b stride skip = Undefined).
Proof.
  intros q m H q'. assert (R1 : q_rule q' = q_rule q) by (unfold q', q_get; rewrite H; destruct (is_null m q); reflexivity).
  assert (N : is_null m q' = true). { unfold q', q_get. rewrite H. destruct (is_null m q) eqn:E; [exact E|]. unfold is_null. cbn [snd q_null existsb]. rewrite Z.eqb_refl. reflexivity. }
  assert (C : clean q' = false). { unfold clean. unfold is_null in N. destruct (q_null q'); [discriminate N|reflexivity]. }
  split; [unfold q_get; rewrite H; reflexivity|]. split; [unfold q_add; rewrite N; reflexivity|]. split; [unfold q_get; rewrite R1, H; reflexivity|]. split; [unfold q_rm; rewrite N; reflexivity|].
  split; [intros; unfold q_entry, q_rm; rewrite N; reflexivity|]. split; [intros F B; unfold q_extent; rewrite R1, F, B, C; reflexivity|].
  split; intros; [unfold q_extract|unfold q_insert]; rewrite C; destruct (Z.ltb_spec 0 sz); try lia; reflexivity.
Qed.
Print Assumptions C94_absent_refuted.
(** A rule without inline numbers: asked for them, then told to hold them. *)
Example ex_C94 : let q := mkQ (newRule [27] true false false) [] in
  lookup 26 (translate (q_rule q)) = None /\ fst (q_add 26 q) = true /\ fst (q_add 26 (snd (q_get 26 q))) = false /\
  asks_present [QGet 27; QEntry MLong 31 9 0; QGet 31; QRm 27] (q_rule q).
Proof. cbv zeta. split; [reflexivity|]. split; [reflexivity|]. split; [reflexivity|]. cbn. repeat split; try congruence; reflexivity. Qed.

(** ---- C95: changing a rule that parameter sets use ---- *)
(** Adding an entry makes the last trace's value lie outside the arrays made before. *)
Theorem C95_added_refuted : forall r m t loc scal sz v, 0 < sz -> 0 <= counts r t -> t <> MCopy -> lookup m (translate r) = None -> convert t v <> None ->
  let p := with_rule (newParam r sz) (add_entry t m loc scal r) in setPrm (sz - 1) m v p = None /\ getPrm (sz - 1) m p = None.
Proof.
  intros r m t loc scal sz v S C NC L CV p.
  assert (G : getEntry m (p_rule p) = Some (mkEntry t (counts r t) loc scal)).
  { unfold p, getEntry, add_entry, rmRule. rewrite L. cbn [with_rule p_rule translate assign lookup]. rewrite Z.eqb_refl. reflexivity. }
  assert (K : counts (p_rule p) t = counts r t + 1). { unfold p, add_entry, rmRule. rewrite L. cbn [with_rule p_rule counts bump]. unfold bump. destruct t; reflexivity. }
  assert (LN : p_len p t = sz * counts r t) by (destruct t; try congruence; reflexivity).
  assert (SL : slot (p_rule p) (sz - 1) (mkEntry t (counts r t) loc scal) = (counts r t + 1) * (sz - 1) + counts r t) by (unfold slot; cbn [e_type e_num]; rewrite K; reflexivity).
  assert (NB : get_slot p t (slot (p_rule p) (sz - 1) (mkEntry t (counts r t) loc scal)) = None).
  { unfold get_slot. rewrite SL, LN. destruct (Z.ltb_spec ((counts r t + 1) * (sz - 1) + counts r t) (sz * counts r t)) as [X|X]; [exfalso; lia|]. rewrite andb_false_r. reflexivity. }
  split.
  - unfold setPrm. rewrite G. cbn [e_type]. destruct (convert t v) eqn:CE; [|congruence]. assert (set_slot p t (slot (p_rule p) (sz - 1) (mkEntry t (counts r t) loc scal)) v0 = None) as E2.
    { unfold set_slot. unfold get_slot in NB. destruct (_ && _); [discriminate NB|reflexivity]. }
    destruct t; cbn [obind]; try congruence; rewrite ?CE; cbn [obind]; exact E2.
  - unfold getPrm. rewrite G. cbn [e_type]. destruct t; try congruence; exact NB.
Qed.
Print Assumptions C95_added_refuted.

(** Values of the kinds of metadata that were not added to are not affected. *)
Theorem C95_other_kinds_partial : forall p m t loc scal i k e, lookup m (translate (p_rule p)) = None -> lookup k (translate (p_rule p)) = Some e -> e_type e <> t ->
  getPrm i k (with_rule p (add_entry t m loc scal (p_rule p))) = getPrm i k p.
Proof.
  intros p m t loc scal i k e LM LK NT. assert (KM : k <> m) by congruence.
  assert (T : translate (add_entry t m loc scal (p_rule p)) = assign m (mkEntry t (counts (p_rule p) t) loc scal) (translate (p_rule p))) by (unfold add_entry, rmRule; rewrite LM; reflexivity).
  assert (C : counts (add_entry t m loc scal (p_rule p)) (e_type e) = counts (p_rule p) (e_type e)).
  { unfold add_entry, rmRule. rewrite LM. cbn [counts]. unfold bump. destruct (mdtype_eqb (e_type e) t) eqn:Q; [|reflexivity]. exfalso; apply NT; clear - Q; destruct (e_type e), t; first [reflexivity | discriminate Q]. }
  assert (L2 : lookup k (translate (add_entry t m loc scal (p_rule p))) = Some e).
  { rewrite T. unfold assign. cbn [lookup]. destruct (Z.eqb_spec m k) as [X|X]; [congruence|]. revert LK. generalize (translate (p_rule p)) as l. induction l as [|(a & x) l IH]; intros H; [discriminate H|]. cbn [lookup] in H. cbn [erase filter fst]. destruct (Z.eqb_spec a m); cbn [negb lookup].
    - destruct (Z.eqb_spec a k); [congruence|]. exact (IH H).
    - destruct (a =? k); [exact H|exact (IH H)]. }
  unfold getPrm, getEntry. cbn [with_rule p_rule]. rewrite L2, LK. unfold slot. rewrite C. destruct (e_type e); reflexivity.
Qed.
Print Assumptions C95_other_kinds_partial.

(** Removing an entry gives the first trace's value of the entry after it the value that the
    removed entry had. *)
Theorem C95_removed_refuted : forall p m k e e', lookup m (translate (p_rule p)) = Some e -> lookup k (translate (p_rule p)) = Some e' ->
  e_type e' = e_type e -> e_num e' = e_num e + 1 -> getPrm 0 k (with_rule p (rmRule m (p_rule p))) = getPrm 0 m p.
Proof.
  intros p m k e e' LM LK T N. assert (KM : k <> m) by (intros ->; rewrite LM in LK; injection LK as ->; lia).
  assert (L2 : lookup k (translate (rmRule m (p_rule p))) = Some (mkEntry (e_type e') (e_num e' - 1) (e_loc e') (e_scal e'))).
  { unfold rmRule. rewrite LM. cbn [translate]. revert LK. generalize (translate (p_rule p)) as l. induction l as [|(a & x) l IH]; intros H; [discriminate H|]. cbn [lookup] in H. cbn [erase filter fst]. destruct (Z.eqb_spec a m); cbn [negb map lookup fst snd].
    - destruct (Z.eqb_spec a k); [congruence|]. exact (IH H).
    - destruct (Z.eqb_spec a k); [|exact (IH H)]. injection H as ->. assert (mdtype_eqb (e_type e') (e_type e) && (e_num e <? e_num e') = true) as -> by (apply andb_true_intro; split; [rewrite T; destruct (e_type e); reflexivity|apply Z.ltb_lt; lia]). reflexivity. }
  unfold getPrm, getEntry. cbn [with_rule p_rule]. rewrite L2, LM. cbn [e_type]. rewrite T. unfold slot. cbn [e_type e_num]. rewrite !Z.mul_0_r, N. replace (0 + (e_num e + 1 - 1)) with (0 + e_num e) by lia. destruct (e_type e); reflexivity.
Qed.
Print Assumptions C95_removed_refuted.
(** A rule with two long entries and a floating point one; a third long entry comes later. *)
Example ex_C95 : let r := newRule [27; 26; 20] true false false in
  0 <= counts r MLong /\ lookup 31 (translate r) = None /\ convert MLong (VI 7) <> None /\
  (exists p, setPrm 4 26 (VI 7) (newParam r 5) = Some p /\ setPrm 4 26 (VI 7) (with_rule (newParam r 5) (rmRule 31 (addLong 31 9 r))) <> None) /\
  (exists e e', lookup 27 (translate r) = Some e /\ lookup 26 (translate r) = Some e' /\ e_type e' = e_type e /\ (e_num e' = e_num e + 1 \/ e_num e = e_num e' + 1)).
Proof.
  cbv zeta. split; [cbn; lia|]. split; [reflexivity|]. split; [discriminate|]. split.
  - eexists. split; [reflexivity|]. discriminate.
  - eexists. eexists. split; [reflexivity|]. split; [reflexivity|]. split; [reflexivity|]. cbn. lia.
Qed.
