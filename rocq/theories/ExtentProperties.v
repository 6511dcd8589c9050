(** C28, continued: rules that span only part of the header. *)
From Coq Require Import Permutation.
From Verif Require Import Base NumEncModel NumEncProofs DataIOModel RuleModel RuleProofs RuleProperties DoubleModel ParamModel ParamProofs HeaderProofs ParamProperties.
Open Scope Z_scope.

(** ---- the cached extent is that of the entries ---- *)
Definition solid (r : rule) : list entry := filter (fun e => negb (is_index e)) (map snd (translate r)).
Definition cached (r : rule) : Prop :=
  r_full r = false -> r_bad r = false -> counts r MCopy = 0 ->
  r_start r = fold_left (fun a e => Z.min a (e_min e)) (solid r) 240 /\ r_end r = fold_left (fun a e => Z.max a (e_max e)) (solid r) 0.
Lemma rm_full m r : r_full (rmRule m r) = r_full r.
Proof. unfold rmRule. destruct (lookup m (translate r)); reflexivity. Qed.
Lemma cached_rm m r : cached r -> cached (rmRule m r).
Proof. intros C. unfold rmRule. destruct (lookup m (translate r)) as [e|]; [|exact C]. intros F B. cbn [r_full r_bad] in *. rewrite F in B. discriminate B. Qed.
Lemma cached_add t m loc scal r : t <> MCopy -> cached r -> cached (add_entry t m loc scal r).
Proof.
  intros T C F B K. unfold add_entry in *. cbn [r_full r_bad r_start r_end] in *. rewrite rm_full in F.
  destruct t; try (rewrite rm_full, F in B; discriminate B); try congruence.
  destruct (lookup m (translate r)) as [e|] eqn:L.
  - exfalso. revert B. unfold rmRule. rewrite L. cbn [r_bad]. rewrite F. discriminate.
  - assert (RM : rmRule m r = r) by (unfold rmRule; rewrite L; reflexivity). rewrite RM in *. unfold bump in K. cbn [counts mdtype_eqb] in K.
    destruct (C F B K) as (S & E). unfold solid in *. cbn [translate]. unfold assign. cbn [map snd filter is_index e_type mdtype_eqb negb].
    rewrite (erase_absent m (translate r)) by (apply lookup_none; exact L). split; assumption.
Qed.
Lemma cached_copy r : good r -> cached r -> cached (addCopy r).
Proof.
  intros G C. unfold addCopy. destruct (Z.eqb_spec (counts r MCopy) 0) as [E|]; [|exact C]. intros _ _ K. exfalso. revert K. cbn [counts]. unfold bump. cbn [mdtype_eqb]. lia.
Qed.
Lemma cached_addRule m r : good r -> cached r -> cached (snd (addRule m r)).
Proof.
  intros G C. unfold addRule. destruct (lookup m (translate r)); [exact C|]. destruct (predefined m) as [p|]; [|exact C]. cbn [snd].
  destruct p; cbn [add_proto]; unfold addLong, addShort, addSEGYFloat; try (apply cached_add; [discriminate|exact C]). apply cached_copy; assumption.
Qed.
Lemma cached_extent r : cached r -> cached (snd (extent r)).
Proof.
  intros C. unfold extent. destruct (r_full r) eqn:F; [exact C|]. destruct (r_bad r) eqn:B; cbn [snd]; [|exact C]. intros _ _ _. split; reflexivity.
Qed.
Lemma cached_reachable r : reachable r -> cached r.
Proof.
  induction 1 as [ms full d x|r o R IH OK|r2 r R2 _ R IH].
  - unfold newRule. destruct full; [intros F; discriminate F|]. unfold extent. cbn [r_full r_bad snd fst]. 
    intros _ _ _. split; reflexivity.
  - pose proof (reachable_good r R) as G. destruct o; cbn [run_op op_ok] in *; unfold addLong, addShort, addSEGYFloat, addIndex; try (apply cached_add; [discriminate|exact IH]).
    + apply cached_addRule; assumption.
    + apply cached_copy; assumption.
    + apply cached_rm, IH.
    + apply cached_extent, IH.
  - unfold addRules. pose proof (reachable_good r R) as G. pose proof (reachable_good r2 R2) as (_ & _ & G2).
    assert (G3 : forall x, In x (translate r2) -> (fst x = META_COPY <-> e_type (snd x) = MCopy)) by (intros (m, e) I; exact (G2 m e I)). clear G2 R R2. revert r IH G.
    induction (translate r2) as [|x l IHl]; intros r C G; [exact C|]. cbn [fold_left]. apply IHl.
    + intros y Y. apply G3. right. exact Y.
    + unfold add_from. destruct (lookup (fst x) (translate r)); [exact C|]. destruct (e_type (snd x)); unfold addLong, addShort, addSEGYFloat, addIndex; try (apply cached_add; [discriminate|exact C]). apply cached_copy; assumption.
    + apply add_from_good; [exact G|]. apply G3. left. reflexivity.
Qed.
Lemma fold_min {A} (f : A -> Z) l : forall a, fold_left (fun a e => Z.min a (f e)) l a <= a /\ (forall e, In e l -> fold_left (fun a e => Z.min a (f e)) l a <= f e) /\
  (fold_left (fun a e => Z.min a (f e)) l a = a \/ exists e, In e l /\ fold_left (fun a e => Z.min a (f e)) l a = f e).
Proof.
  induction l as [|x l IH]; intros a; cbn [fold_left]; [split; [lia|split; [intros ? []|left; reflexivity]]|]. destruct (IH (Z.min a (f x))) as (A1 & A2 & A3). split; [lia|]. split.
  - intros e [<-|I]; [lia|apply A2, I].
  - destruct A3 as [A3|(e & I & A3)]; [|right; exists e; split; [right; exact I|exact A3]]. destruct (Z.min_spec a (f x)) as [(_ & M)|(_ & M)]; rewrite M in A3 at 2; [left; exact A3|right; exists x; split; [left; reflexivity|exact A3]].
Qed.
Lemma fold_max {A} (f : A -> Z) l : forall a, a <= fold_left (fun a e => Z.max a (f e)) l a /\ (forall e, In e l -> f e <= fold_left (fun a e => Z.max a (f e)) l a) /\
  (fold_left (fun a e => Z.max a (f e)) l a = a \/ exists e, In e l /\ fold_left (fun a e => Z.max a (f e)) l a = f e).
Proof.
  induction l as [|x l IH]; intros a; cbn [fold_left]; [split; [lia|split; [intros ? []|left; reflexivity]]|]. destruct (IH (Z.max a (f x))) as (A1 & A2 & A3). split; [lia|]. split.
  - intros e [<-|I]; [lia|apply A2, I].
  - destruct A3 as [A3|(e & I & A3)]; [|right; exists e; split; [right; exact I|exact A3]]. destruct (Z.max_spec a (f x)) as [(_ & M)|(_ & M)]; rewrite M in A3 at 2; [right; exists x; split; [left; reflexivity|exact A3]|left; exact A3].
Qed.

(** ---- C28: the extent ---- *)
(** The header fields (1-based first byte, length) of the rule's entries. *)
Definition field (r : rule) (a : Z * Z) : Prop := exists m e, In (m, e) (translate r) /\ In a (efields e).
(** The rule's fields are inside the 240-byte header. *)
Definition in_range (r : rule) : Prop := forall a, field r a -> 1 <= fst a /\ fst a + snd a <= 241.
(** The extent of a rule without COPY, whatever its history, spans exactly its fields:
    none lies outside, and there is one at each end. *)
Theorem C28_extent_spans_fields : forall r, reachable r -> r_full r = false -> counts r MCopy = 0 -> in_range r -> (exists a, field r a) ->
  let '(ext, r') := extent r in
  (forall a, field r a -> r_start r' <= fst a /\ fst a + snd a <= r_start r' + ext) /\
  (exists a, field r a /\ fst a = r_start r') /\ (exists a, field r a /\ fst a + snd a = r_start r' + ext).
Proof.
  intros r R F K IR (a0 & A0). pose proof (cached_reachable r R) as C.
  assert (SE : exists s e, s = fold_left (fun a e => Z.min a (e_min e)) (solid r) 240 /\ e = fold_left (fun a e => Z.max a (e_max e)) (solid r) 0 /\ exists r', extent r = (u64 (e - s), r') /\ r_start r' = s).
  { unfold extent. rewrite F. destruct (r_bad r) eqn:B.
    - eexists. eexists. split; [reflexivity|]. split; [reflexivity|]. eexists. split; [reflexivity|]. reflexivity.
    - destruct (C F B K) as (S & E). exists (r_start r), (r_end r). split; [exact S|]. split; [exact E|]. exists r. split; reflexivity. }
  destruct SE as (s & en & S & E & r' & X & Y). rewrite X, Y.
  assert (NC : forall m e, In (m, e) (translate r) -> e_type e <> MCopy).
  { intros m e I T. pose proof (reachable_good r R) as G. assert (m = META_COPY) as -> by (destruct G as (_ & _ & G); apply (G m e I), T). pose proof (copy_absent r G K) as L. destruct G as (ND & _). rewrite (in_lookup _ _ _ ND I) in L. discriminate L. }
  assert (SO : forall e, In e (solid r) <-> (exists m, In (m, e) (translate r)) /\ e_type e <> MIndex).
  { intros e. unfold solid. rewrite filter_In, in_map_iff. split.
    - intros (((m, e') & <- & I) & N). split; [exists m; exact I|]. unfold is_index in N. cbn [snd] in *. destruct (e_type e'); discriminate.
    - intros ((m & I) & N). split; [exists (m, e); split; [reflexivity|exact I]|]. unfold is_index. destruct (e_type e); reflexivity || congruence. }
  assert (FE : forall e a, In a (efields e) -> e_min e <= fst a /\ fst a + snd a <= e_max e).
  { intros e a A. unfold efields, e_min, e_max in *. destruct (e_type e); cbn [In] in A; try contradiction; repeat (destruct A as [<-|A]; [cbn [fst snd]; lia|]); contradiction. }
  assert (EF : forall e, e_type e <> MIndex -> e_type e <> MCopy -> (exists a, In a (efields e) /\ fst a = e_min e) /\ (exists a, In a (efields e) /\ fst a + snd a = e_max e)).
  { intros e N1 N2. unfold efields, e_min, e_max. destruct (e_type e); try congruence; cbn [In].
    - split; eexists; split; [left; reflexivity|reflexivity|left; reflexivity|reflexivity].
    - split; eexists; split; [left; reflexivity|reflexivity|left; reflexivity|reflexivity].
    - split.
      + destruct (Z.min_spec (e_scal e) (e_loc e)) as [(_ & ->)|(_ & ->)]; [exists (e_scal e, 2)|exists (e_loc e, 4)]; (split; [tauto|reflexivity]).
      + destruct (Z.max_spec (e_scal e + 2) (e_loc e + 4)) as [(_ & ->)|(_ & ->)]; [exists (e_loc e, 4)|exists (e_scal e, 2)]; (split; [tauto|reflexivity]). }
  assert (FS : forall a, field r a -> exists e, In e (solid r) /\ In a (efields e)).
  { intros a (m & e & I & A). exists e. split; [|exact A]. apply SO. split; [exists m; exact I|]. intros T. unfold efields in A. rewrite T in A. destruct A. }
  destruct (fold_min e_min (solid r) 240) as (L1 & L2 & L3). destruct (fold_max e_max (solid r) 0) as (M1 & M2 & M3). rewrite <- S in *. rewrite <- E in *.
  destruct (FS a0 A0) as (e0 & I0 & J0). pose proof (FE e0 a0 J0) as Q0. pose proof (field_pos e0 a0 J0) as P0. pose proof (L2 e0 I0). pose proof (M2 e0 I0). pose proof (IR a0 A0).
  assert (LO : exists a, field r a /\ fst a = s).
  { destruct L3 as [L3|(e & I & L3)].
    - (* the first field starts at the last byte *) exists a0. split; [exact A0|]. lia.
    - apply SO in I as ((m & I) & T). destruct (EF e T (NC m e I)) as ((a & A & B) & _). exists a. split; [exists m, e; auto|lia]. }
  assert (HI : exists a, field r a /\ fst a + snd a = en).
  { destruct M3 as [M3|(e & I & M3)]; [lia|]. apply SO in I as ((m & I) & T). destruct (EF e T (NC m e I)) as (_ & (a & A & B)). exists a. split; [exists m, e; auto|lia]. }
  assert (U : u64 (en - s) = en - s). { apply u64_id. destruct LO as (a & A & B), HI as (b & A' & B'). pose proof (IR a A). pose proof (IR b A'). unfold in_u64, two64. lia. }
  rewrite U. replace (s + (en - s)) with en by ring. split; [|split; assumption].
  intros a A. destruct (FS a A) as (e & I & J). pose proof (FE e a J). pose proof (L2 e I). pose proof (M2 e I). lia.
Qed.
Print Assumptions C28_extent_spans_fields.
Example C28_extent_demo : let r := run_op (run_op (newRule [26; 20] false false false) (OShort 40 29)) (ORm 20) in
  reachable r /\ r_full r = false /\ counts r MCopy = 0 /\ field r (29, 2) /\ fst (extent r) = 164 /\ r_start (snd (extent r)) = 29.
Proof.
  cbv zeta. split; [repeat (apply reach_op; [|cbv; congruence || exact Logic.I]); apply reach_new|]. split; [reflexivity|]. split; [reflexivity|]. split; [|split; reflexivity].
  eexists. eexists. split; [left; reflexivity|left; reflexivity].
Qed.
(** With an up-to-date extent, writing therefore misses the buffer of each trace by
    exactly one byte: everything it writes for trace i lies in the [ext] bytes that
    begin one before the trace's. *)
Theorem C28_off_by_one_partial : forall p sz buf buf' stride skip, let r := p_rule p in reachable r ->
  r_full r = false -> r_bad r = false -> counts r MCopy = 0 -> in_range r -> (exists a, field r a) -> 0 <= sz ->
  insertParam sz p buf stride skip = Some buf' ->
  forall x, (forall i, 0 <= i < sz -> let first := (fst (extent r) + stride) * i in ~ (first - 1 <= x < first - 1 + fst (extent r))) -> buf' x = buf x.
Proof.
  intros p sz buf buf' stride skip r R F B K IR NE Hz I x X.
  pose proof (C28_extent_spans_fields r R F K IR NE) as SP. assert (EX : snd (extent r) = r) by (unfold extent; rewrite F, B; reflexivity). destruct (extent r) as (ext, r') eqn:EQ. cbn [snd] in EX. subst r'. cbn [fst] in *. destruct SP as (SP & _).
  unfold insertParam in I. fold r in I. rewrite EQ in I. cbn [fst] in I. destruct (omap _ _) as [cws|] eqn:E1 in I; [|discriminate]. cbn [obind] in I.
  destruct (omap _ _) as [tws|] eqn:E2 in I; [|discriminate]. cbn [obind] in I. injection I as <-. apply writes_out. intros w I C. apply in_app_iff in I. destruct I as [I|I]; apply in_concat in I; destruct I as (c & I & J).
  - apply (omap_in _ _ _ c E1) in I. destruct I as (j & I & Fj). unfold copy_write in Fj. fold r in Fj. rewrite K, Z.eqb_refl in Fj. injection Fj as <-. destruct J.
  - apply (omap_in _ _ _ c E2) in I. destruct I as (j & I & Fj). apply in_zrange in I. destruct (trace_write_field _ _ _ _ _ Fj w J) as (m & e & a & I1 & I2 & W).
    destruct (SP a (ex_intro _ m (ex_intro _ e (conj I1 I2)))) as (S1 & S2). unfold write_of, covers in *. destruct W as (W1 & W2). apply (X j ltac:(lia)). cbv zeta. lia.
Qed.
Print Assumptions C28_off_by_one_partial.
Example C28_off_by_one_demo : let r := newRule [26; 27] false false false in
  r_bad r = false /\ option_map (fun b => (b (-1), b 6, b 7)) (insertParam 1 (newParam r 1) (fun _ => 7) 0 0) = Some (0, 0, 7).
Proof. cbv zeta. split; [reflexivity|]. vm_compute. reflexivity. Qed.
(** Refuted also for a rule that was extended after its extent was worked out: the
    first write still counts from the old start and misses the buffer altogether. *)
Theorem C28_stale_start_refuted : exists r p, reachable r /\ setPrm 0 31 (VI 305419896) (newParam r 1) = Some p /\
  fst (extent r) = 184 /\ option_map (fun b => (b (-181), b (-180), b (-179), b (-178))) (insertParam 1 p (fun _ => 7) 0 0) = Some (18, 52, 86, 120).
Proof.
  exists (run_op (newRule [26] false false false) (OLong 31 9)). eexists. split; [apply reach_op; [apply reach_new|discriminate]|].
  split; [reflexivity|]. split; [reflexivity|vm_compute; reflexivity].
Qed.
Print Assumptions C28_stale_start_refuted.
