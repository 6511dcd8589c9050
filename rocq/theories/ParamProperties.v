(** Properties C28 to C38: metadata in memory and in trace headers. *)
From Coq Require Import Permutation Reals Lra.
From Flocq Require Import Core IEEE754.BinarySingleNaN.
From Verif Require Import Base NumEncModel NumEncProofs DataIOModel RuleModel RuleProofs RuleProperties DoubleModel ParamModel ParamProofs HeaderProofs ScalarProofs.
Open Scope Z_scope.

(** A parameter set a program can hold: created for a reachable rule and changed
    by any sequence of the public operations. *)
Inductive held : param -> Prop :=
| held_new r sz : reachable r -> 0 <= sz -> held (newParam r sz)
| held_set i m v p p' : held p -> setPrm i m v p = Some p' -> held p'
| held_read sz buf b0 p stride skip p' : held p -> extractParam sz buf b0 p stride skip = Some p' -> held p'
| held_copy same j src k p p' : held p -> cpyPrm same j src k p = Some p' -> held p'.
Lemma held_wf p : held p -> wf_param p.
Proof.
  induction 1 as [r sz R H|? ? ? ? ? _ IH E|? ? ? ? ? ? ? _ IH E|? ? ? ? ? ? _ IH E].
  - apply newParam_wf; [apply reachable_good, R|exact H].
  - exact (shape_wf _ _ (setPrm_shape _ _ _ _ _ E) IH).
  - exact (shape_wf _ _ (extract_shape _ _ _ _ _ _ _ E) IH).
  - exact (shape_wf _ _ (cpyPrm_shape _ _ _ _ _ _ E) IH).
Qed.
(** A rule that covers the whole 240-byte header and whose fields lie in it
    without overlap, shared scale factors excepted ([fields_ok]). *)
Definition usable (r : rule) : Prop := full_rule r /\ fields_ok r.

(** Every rule made of predefined metadata is usable. *)
Inductive predefined_rule : rule -> Prop :=
| pre_new ms d x : predefined_rule (newRule ms true d x)
| pre_add r m : predefined_rule r -> predefined_rule (run_op r (OAdd m))
| pre_rm r m : predefined_rule r -> predefined_rule (run_op r (ORm m))
| pre_copy r : predefined_rule r -> predefined_rule (run_op r OCopy).
Definition pre_entry (x : Z * entry) : Prop :=
  efields (snd x) = [] \/ exists p, predefined (fst x) = Some p /\ efields (snd x) = proto_fields p /\ forall a, scale_field p a -> is_scale (snd x) a.
Lemma pre_entries r : predefined_rule r -> Forall pre_entry (translate r).
Proof.
  assert (RM : forall m r, Forall pre_entry (translate r) -> Forall pre_entry (translate (rmRule m r))).
  { intros m r0 H. unfold rmRule. destruct (lookup m (translate r0)) as [e0|]; [|exact H]. cbn [translate].
    rewrite Forall_forall in H |- *. intros x I. apply in_map_iff in I. destruct I as (y & <- & I). apply filter_In in I. destruct I as (I & _).
    specialize (H y I). unfold pre_entry in *. cbn [fst snd]. destruct (_ && _); exact H. }
  assert (ER : forall m l, Forall pre_entry l -> Forall pre_entry (erase m l)).
  { intros m l H. rewrite Forall_forall in *. intros x I. apply filter_In in I. apply H. tauto. }
  assert (AE : forall t m l s r, pre_entry (m, mkEntry t 0 l s) -> Forall pre_entry (translate r) -> Forall pre_entry (translate (add_entry t m l s r))).
  { intros t m l s r0 P H. unfold add_entry. cbn [translate]. constructor; [exact P|]. apply ER, RM, H. }
  assert (AC : forall r, Forall pre_entry (translate r) -> Forall pre_entry (translate (addCopy r))).
  { intros r0 H. unfold addCopy. destruct (_ =? 0); [|exact H]. cbn [translate]. constructor; [left; reflexivity|apply ER, H]. }
  assert (AR : forall m r, Forall pre_entry (translate r) -> Forall pre_entry (translate (snd (addRule m r)))).
  { intros m r0 H. unfold addRule. destruct (lookup m (translate r0)); [exact H|]. destruct (predefined m) as [p|] eqn:P; [|exact H]. cbn [snd].
    destruct p; cbn [add_proto]; try apply AC, H; apply AE; try exact H; right; eexists; (split; [exact P|]); (split; [reflexivity|]);
      intros a A; cbn in A; try contradiction; (split; [reflexivity|exact A]). }
  assert (FR : forall ms r, Forall pre_entry (translate r) -> Forall pre_entry (translate (fold_left (fun r m => snd (addRule m r)) ms r))).
  { induction ms as [|m ms IH]; intros r0 H; [exact H|]. apply IH, AR, H. }
  induction 1 as [ms d x|r m _ IH|r m _ IH|r _ IH]; [|apply AR, IH|apply RM, IH|apply AC, IH].
  unfold newRule.
  set (r0 := fold_left _ ms _). assert (G0 : Forall pre_entry (translate r0)).
  { apply FR. apply AE; [left; reflexivity|]. apply AE; [left; reflexivity|constructor]. } clearbody r0.
  set (r1 := if d then _ else r0). assert (G1 : Forall pre_entry (translate r1)) by (unfold r1; destruct d; [apply FR|]; exact G0). clearbody r1.
  set (r3 := if x then _ else r1). assert (G3 : Forall pre_entry (translate r3)) by (unfold r3; destruct x; [apply FR|]; exact G1). exact G3.
Qed.
Lemma predefined_usable r : predefined_rule r -> usable r.
Proof.
  intros H. split.
  - induction H; [apply newRule_full|apply run_op_full; assumption..].
  - pose proof (pre_entries r H) as P. rewrite Forall_forall in P. intros m1 e1 a I1 A.
    destruct (P _ I1) as [E|(p1 & Q1 & E1 & S1)]; cbn [fst snd] in *; [rewrite E in A; destruct A|]. rewrite E1 in A.
    destruct (C27_fields_disjoint m1 m1 p1 p1 a a Q1 Q1 A A) as (B1 & B2 & _). split; [exact B1|]. split; [exact B2|].
    intros m2 e2 b I2 B. destruct (P _ I2) as [E|(p2 & Q2 & E2 & S2)]; cbn [fst snd] in *; [rewrite E in B; destruct B|]. rewrite E2 in B.
    destruct (C27_fields_disjoint m1 m2 p1 p2 a b Q1 Q2 A B) as (_ & _ & [D|(-> & [->|(Z1 & Z2)])]); [left; exact D|right; auto|].
    right. split; [reflexivity|right]. split; [apply S1, Z1|apply S2, Z2].
Qed.
Lemma predefined_reachable r : predefined_rule r -> reachable r.
Proof. induction 1; [apply reach_new|apply reach_op; [assumption|exact Logic.I]..]. Qed.

(** The 240 header bytes of trace i in a buffer with [stride] bytes between headers. *)
Definition in_header (stride i x : Z) : Prop := (240 + stride) * i <= x < (240 + stride) * i + 240.
(** A coordinate of moderate size: finite and at most 2^40 in magnitude. *)
Definition moderate (v : D) : Prop := is_finite v = true /\ (Rabs (B2R v) <= bpow radix2 40)%R.

(** C28 (part): for a usable rule, writing changes only bytes of the headers of
    the traces written; reading succeeds, and its result depends only on the
    header bytes; writing succeeds when the coordinates are moderate. *)
Theorem C28_full_extent_partial :
  forall p sz buf b0 stride skip,
  held p -> usable (p_rule p) -> 0 <= stride -> 0 <= sz -> 0 <= skip -> skip + sz <= p_sz p ->
  (forall buf', insertParam sz p buf stride skip = Some buf' ->
     forall x, (forall i, 0 <= i < sz -> ~ in_header stride i x) -> buf' x = buf x) /\
  ((forall i m e, 0 <= i < sz -> lookup m (translate (p_rule p)) = Some e -> e_type e = MFloat ->
      exists v, getPrm (i + skip) m p = Some (VF v) /\ moderate v) ->
     exists buf', insertParam sz p buf stride skip = Some buf') /\
  (exists p', extractParam sz buf b0 p stride skip = Some p') /\
  (forall bufB, (forall i x, 0 <= i < sz -> in_header stride i x -> buf (b0 + x) = bufB (b0 + x)) ->
     opeq (extractParam sz buf b0 p stride skip) (extractParam sz bufB b0 p stride skip)).
Proof.
  intros p sz buf b0 stride skip Hp (F & OK) Hs Hz Hk Hle. apply held_wf in Hp. split; [|split; [|split]].
  - intros buf' H. apply (insert_bytes _ _ _ _ _ _ F OK Hs Hz H).
  - intros M. apply insert_some; try assumption.
    + apply find_scalar_range.
    + intros cs Hcs. apply combine_fold_range; [unfold in_s16; lia|exact Hcs].
    + intros i m e Hi L T. destruct (M i m e Hi L T) as (v & G & Fv & Bv).
      rewrite (getPrm_at p (i + skip) m e Hp L) in G by (congruence || lia). rewrite T in G. injection G as ->.
      split; [apply find_scalar_some; assumption|]. intros s. apply div_some; assumption.
  - destruct (extract_spec sz buf b0 p stride skip Hp F Hz Hk Hle) as (p' & E & _). eauto.
  - intros bufB H. apply extract_local; try assumption. intros i x Hi Hx.
    rewrite <- !Z.add_assoc. apply (H i); [exact Hi|]. unfold in_header. lia.
Qed.
Print Assumptions C28_full_extent_partial.
Example C28_nonvacuous :
  let p := newParam (newRule [0] true true true) 3 in
  held p /\ usable (p_rule p) /\ counts (p_rule p) MFloat = 10 /\
  option_map (fun b => b 71) (insertParam 2 p (fun _ => 7) 100 1) = Some 1.
Proof.
  cbv zeta. split; [apply held_new; [apply reach_new|lia]|]. split; [apply predefined_usable, pre_new|]. split; [reflexivity|vm_compute; reflexivity].
Qed.
(** Refuted otherwise: with a rule that does not span the header the first field
    lies one byte before the caller's buffer, for writing and for reading; *)
Theorem C28_partial_extent_refuted :
  exists r p, reachable r /\ setPrm 0 26 (VI 305419896) (newParam r 1) = Some p /\
  option_map (fun b => b (-1)) (insertParam 1 p (fun _ => 7) 0 0) = Some 18 /\
  obind (extractParam 1 (fun a => if a =? -1 then 1 else 0) 0 p 0 0) (getPrm 0 26) = Some (VI 16777216).
Proof. exists (newRule [26] false false false). eexists. split; [apply reach_new|]. split; [reflexivity|]. split; vm_compute; reflexivity. Qed.
Print Assumptions C28_partial_extent_refuted.
(** and with COPY added to such a rule the second trace's fields go into the
    first trace's header. *)
Theorem C28_copy_extent_refuted :
  exists r p, reachable r /\ setPrm 1 26 (VI 305419896) (newParam r 2) = Some p /\
  counts r MCopy = 1 /\ option_map (fun b => (b 3, b 4)) (insertParam 2 p (fun _ => 7) 0 0) = Some (18, 52).
Proof.
  exists (run_op (newRule [26] false false false) OCopy). eexists. split; [apply reach_op; [apply reach_new|exact Logic.I]|].
  split; [reflexivity|]. split; [reflexivity|vm_compute; reflexivity].
Qed.
Print Assumptions C28_copy_extent_refuted.

Ltac chain H := repeat (match type of H with obind ?x _ = Some _ => let E := fresh "E" in destruct x eqn:E; [cbn [obind] in H|discriminate] end).
(** C29: setting a value of the entry's own type and getting it back; every other
    trace and entry keeps its value. *)
Theorem C29_set_get :
  forall p i m v e, held p -> lookup m (translate (p_rule p)) = Some e -> 0 <= i < p_sz p -> fits_type (e_type e) v ->
  exists p', setPrm i m v p = Some p' /\ getPrm i m p' = Some v /\ p_rule p' = p_rule p /\ p_sz p' = p_sz p /\
    forall i' m', 0 <= i' < p_sz p -> (i', m') <> (i, m) -> getPrm i' m' p' = getPrm i' m' p.
Proof.
  intros p i m v e Hp L Hi F. destruct (set_get p i m v e (held_wf p Hp) L Hi F) as (p' & A & B & _ & C & D & E). exists p'. auto.
Qed.
Print Assumptions C29_set_get.
(** every access is in bounds *)
Theorem C29_get_in_bounds :
  forall p i m e, held p -> lookup m (translate (p_rule p)) = Some e -> 0 <= i < p_sz p -> exists v, getPrm i m p = Some v.
Proof.
  intros p i m e Hp L Hi. destruct (mdtype_eqb_spec (e_type e) MCopy) as [T|T].
  - unfold getPrm, getEntry. rewrite L, T. eauto.
  - rewrite (getPrm_at p i m e (held_wf p Hp) L T Hi). eauto.
Qed.
Print Assumptions C29_get_in_bounds.
Example C29_nonvacuous :
  let p := newParam (newRule [] true true true) 4 in
  held p /\ lookup 26 (translate (p_rule p)) = Some (mkEntry MLong 1 189 0) /\ fits_type MLong (VI (-5)) /\
  obind (setPrm 2 26 (VI (-5)) p) (getPrm 2 26) = Some (VI (-5)).
Proof. cbv zeta. split; [apply held_new; [apply reach_new|lia]|]. split; [reflexivity|]. split; [cbv; split; discriminate|reflexivity]. Qed.

(** C30: copying between sets that share a rule copies every entry (and the
    copied header) of the trace and leaves the other traces alone. *)
Lemma same_rule_wf :
  forall src dst j k, wf_param src -> wf_param dst -> p_rule dst = p_rule src ->
  (counts (p_rule src) MCopy <> 0 -> full_rule (p_rule src)) -> 0 <= j < p_sz src -> 0 <= k < p_sz dst ->
  exists dst', cpyPrm true j src k dst = Some dst' /\ p_rule dst' = p_rule dst /\ p_sz dst' = p_sz dst /\
  (forall m e, lookup m (translate (p_rule src)) = Some e -> getPrm k m dst' = getPrm j m src) /\
  (counts (p_rule src) MCopy <> 0 -> forall x, 0 <= x < 240 -> int_of (p_at dst' MCopy (k * 240 + x)) = int_of (p_at src MCopy (j * 240 + x))) /\
  (forall i m, 0 <= i < p_sz dst -> i <> k -> getPrm i m dst' = getPrm i m dst).
Proof.
  intros src dst j k Hs Hd R FC Hj Hk. unfold cpyPrm.
  assert (X : exists d1, (if counts (p_rule src) MCopy =? 0 then Some dst
       else extractParam 1 (fun a => int_of (p_at src MCopy a)) (j * 240) dst 0 k) = Some d1 /\ wf_param d1 /\
     p_rule d1 = p_rule dst /\ p_sz d1 = p_sz dst /\ p_len d1 = p_len dst /\
     (counts (p_rule src) MCopy <> 0 -> forall x, 0 <= x < 240 -> int_of (p_at d1 MCopy (k * 240 + x)) = int_of (p_at src MCopy (j * 240 + x))) /\
     (forall i m e, 0 <= i < p_sz dst -> i <> k -> lookup m (translate (p_rule dst)) = Some e -> e_type e <> MCopy ->
        p_at d1 (e_type e) (slot (p_rule dst) i e) = p_at dst (e_type e) (slot (p_rule dst) i e))).
  { destruct (Z.eqb_spec (counts (p_rule src) MCopy) 0) as [E|E].
    - exists dst. split; [reflexivity|]. split; [exact Hd|]. repeat (split; [reflexivity|]). split; [contradiction|auto].
    - destruct (extract_spec 1 (fun a => int_of (p_at src MCopy a)) (j * 240) dst 0 k Hd) as (d1 & E1 & W1 & R1 & S1 & L1 & _ & C1 & U1); [rewrite R; auto|lia|lia|lia|].
      exists d1. split; [exact E1|]. split; [exact W1|]. split; [exact R1|]. split; [exact S1|]. split; [exact L1|]. split.
      + intros _ x Hx. specialize (C1 ltac:(congruence) 0 x ltac:(lia) Hx). rewrite Z.add_0_l in C1. rewrite C1. cbn [int_of].
        do 2 f_equal. lia.
      + intros i m e Hi N L T. apply U1; [|intros; contradiction].
        intros i' k' e' v Hi' I De EQ. injection EQ as TT SS. destruct Hd as (G & _). pose proof G as (ND & _).
        destruct (slot_inj _ _ _ _ _ _ _ G L (in_lookup _ _ _ ND I) TT SS) as (A & _). lia. }
  destruct X as (d1 & -> & W1 & R1 & S1 & L1 & C1 & U1). cbn [obind].
  assert (LEN : forall t, In t kinds4 -> p_len d1 t = p_sz d1 * counts (p_rule src) t).
  { intros t I. destruct W1 as (_ & _ & LW & _). rewrite LW, R1, R; [reflexivity|]. intros ->. repeat destruct I as [I|I]; try discriminate. destruct I. }
  assert (K4 : forall t, In t kinds4 -> t <> MCopy) by (intros t I ->; repeat destruct I as [I|I]; try discriminate; destruct I).
  assert (K4' : forall t, t <> MCopy -> In t kinds4) by (intros t T; unfold kinds4; destruct t; cbn; auto; contradiction).
  destruct (copy_kinds src j k kinds4 d1 Hs K4) as (d2 & F2 & R2 & S2 & L2 & A2 & U2).
  { unfold kinds4. repeat constructor; cbn; intuition discriminate. } { exact Hj. } { lia. } { exact LEN. }
  exists d2. split; [exact F2|]. split; [congruence|]. split; [congruence|].
  assert (W2 : wf_param d2) by (unfold wf_param; rewrite R2, S2, L2; exact W1). split; [|split].
  - intros m e L. destruct (mdtype_eqb_spec (e_type e) MCopy) as [T|T].
    { unfold getPrm, getEntry. rewrite R2, R1, R, L, T. reflexivity. }
    rewrite (getPrm_at d2 k m e W2) by (try rewrite R2, R1, R; try rewrite S2, S1; assumption || lia).
    rewrite (getPrm_at src j m e Hs) by (assumption || lia). f_equal. unfold slot. rewrite R2, R1, R.
    apply A2; [apply K4', T|]. destruct Hs as (G & _). apply (slots_range _ _ _ G L).
  - intros N x Hx. rewrite U2 by (intros I; exfalso; apply (K4 _ I); reflexivity). apply C1; assumption.
  - intros i m Hi N. destruct (lookup m (translate (p_rule dst))) as [e|] eqn:L.
    2:{ unfold getPrm, getEntry. rewrite R2, R1, L. reflexivity. }
    destruct (mdtype_eqb_spec (e_type e) MCopy) as [T|T].
    { unfold getPrm, getEntry. rewrite R2, R1, L, T. reflexivity. }
    rewrite (getPrm_at d2 i m e W2) by (try rewrite R2, R1; try rewrite S2, S1; assumption || lia).
    rewrite (getPrm_at dst i m e Hd) by (assumption || lia). f_equal. rewrite R2, R1, U2.
    + apply (U1 i m); assumption.
    + intros _ C. unfold slot in C. destruct Hs as (G & _). pose proof L as L'. rewrite R in L'. pose proof (slots_range _ _ _ G L') as B. rewrite R in C.
      set (c := counts (p_rule src) (e_type e)) in *. destruct (Z.lt_trichotomy i k) as [D|[D|D]]; [|contradiction|].
      * assert (c * (i + 1) <= c * k) by (apply Z.mul_le_mono_nonneg_l; lia). lia.
      * assert (c * (k + 1) <= c * i) by (apply Z.mul_le_mono_nonneg_l; lia). lia.
Qed.
Theorem C30_same_rule :
  forall src dst j k, held src -> held dst -> p_rule dst = p_rule src ->
  (counts (p_rule src) MCopy <> 0 -> full_rule (p_rule src)) -> 0 <= j < p_sz src -> 0 <= k < p_sz dst ->
  exists dst', cpyPrm true j src k dst = Some dst' /\ p_rule dst' = p_rule dst /\ p_sz dst' = p_sz dst /\
  (forall m e, lookup m (translate (p_rule src)) = Some e -> getPrm k m dst' = getPrm j m src) /\
  (counts (p_rule src) MCopy <> 0 -> forall x, 0 <= x < 240 -> int_of (p_at dst' MCopy (k * 240 + x)) = int_of (p_at src MCopy (j * 240 + x))) /\
  (forall i m, 0 <= i < p_sz dst -> i <> k -> getPrm i m dst' = getPrm i m dst).
Proof. intros src dst j k Hs Hd. apply same_rule_wf; apply held_wf; assumption. Qed.
Print Assumptions C30_same_rule.
(** Different rules: exactly the entries in both with the same type are copied;
    the others keep their value when the source has no COPY entry, and are read
    from the source's copied header when it has one. *)
Theorem C30_different_rules :
  forall src dst j k, held src -> held dst ->
  (counts (p_rule src) MCopy <> 0 -> full_rule (p_rule dst)) -> 0 <= j < p_sz src -> 0 <= k < p_sz dst ->
  exists dst', cpyPrm false j src k dst = Some dst' /\ p_rule dst' = p_rule dst /\ p_sz dst' = p_sz dst /\
  (forall m es ed, lookup m (translate (p_rule src)) = Some es -> lookup m (translate (p_rule dst)) = Some ed -> e_type ed = e_type es ->
     getPrm k m dst' = getPrm j m src) /\
  (forall m ed, lookup m (translate (p_rule dst)) = Some ed ->
     (forall es, lookup m (translate (p_rule src)) = Some es -> e_type ed <> e_type es) ->
     (counts (p_rule src) MCopy = 0 \/ e_type ed = MIndex -> getPrm k m dst' = getPrm k m dst) /\
     (counts (p_rule src) MCopy <> 0 -> forall v, decode (fun a => int_of (p_at src MCopy (j * 240 + a))) 0 0 ed = Some v -> getPrm k m dst' = Some v)) /\
  (forall i m, 0 <= i < p_sz dst -> i <> k -> getPrm i m dst' = getPrm i m dst).
Proof.
  intros src dst j k Hs Hd FC Hj Hk. apply held_wf in Hs, Hd. unfold cpyPrm.
  pose proof Hd as (G & _). pose proof G as (ND & _). pose proof Hs as (Gs & _). pose proof Gs as (NDs & _).
  assert (X : exists d1, (if counts (p_rule src) MCopy =? 0 then Some dst
       else extractParam 1 (fun a => int_of (p_at src MCopy a)) (j * 240) dst 0 k) = Some d1 /\ wf_param d1 /\
     p_rule d1 = p_rule dst /\ p_sz d1 = p_sz dst /\
     (counts (p_rule src) MCopy <> 0 -> forall m e v, lookup m (translate (p_rule dst)) = Some e ->
        decode (fun a => int_of (p_at src MCopy (j * 240 + a))) 0 0 e = Some v -> p_at d1 (e_type e) (slot (p_rule dst) k e) = v) /\
     (forall i m e, lookup m (translate (p_rule dst)) = Some e -> e_type e <> MCopy ->
        (i <> k \/ counts (p_rule src) MCopy = 0 \/ e_type e = MIndex) ->
        p_at d1 (e_type e) (slot (p_rule dst) i e) = p_at dst (e_type e) (slot (p_rule dst) i e))).
  { destruct (Z.eqb_spec (counts (p_rule src) MCopy) 0) as [E|E].
    - exists dst. split; [reflexivity|]. split; [exact Hd|]. repeat (split; [reflexivity|]). split; [contradiction|auto].
    - destruct (extract_spec 1 (fun a => int_of (p_at src MCopy a)) (j * 240) dst 0 k Hd) as (d1 & E1 & W1 & R1 & S1 & L1 & A1 & C1 & U1); [auto|lia|lia|lia|].
      exists d1. split; [exact E1|]. split; [exact W1|]. split; [exact R1|]. split; [exact S1|]. split.
      + intros _ m e v L De. rewrite <- (A1 0 m e v); [rewrite Z.add_0_l; reflexivity|lia|apply lookup_in; exact L|].
        replace (j * 240 + (240 + 0) * 0) with (0 + j * 240) by lia. rewrite <- decode_shift. rewrite <- De.
        unfold decode, rd16, rd32. rewrite !(Z.add_comm _ (j * 240)). reflexivity.
      + intros i m e L T Q. apply U1; [|intros; contradiction].
        intros i' k' e' v Hi' I De EQ. injection EQ as TT SS.
        destruct (slot_inj _ _ _ _ _ _ _ G L (in_lookup _ _ _ ND I) TT SS) as (A & _).
        destruct Q as [Q|[Q|Q]]; [lia|contradiction|]. destruct (decode_copyfree _ _ _ _ _ De) as (_ & D2). congruence. }
  destruct X as (d1 & -> & W1 & R1 & S1 & D1 & U1). cbn [obind].
  destruct (copy_entries src j k (translate (p_rule src)) d1 Hs W1 (incl_refl _) NDs Hj ltac:(lia)) as (d2 & F2 & R2 & S2 & L2 & A2 & U2).
  exists d2. split; [exact F2|]. split; [congruence|]. split; [congruence|].
  assert (W2 : wf_param d2) by (unfold wf_param; rewrite R2, S2, L2; exact W1). rewrite R1 in *.
  assert (GET : forall i m e, lookup m (translate (p_rule dst)) = Some e -> e_type e <> MCopy -> 0 <= i < p_sz dst ->
    getPrm i m d2 = Some (p_at d2 (e_type e) (slot (p_rule dst) i e))).
  { intros i m e L T Hi. rewrite (getPrm_at d2 i m e W2) by (try rewrite R2; try rewrite S2, S1; assumption). rewrite R2. reflexivity. }
  (* an entry without a partner in the source is not touched by the second step *)
  assert (KEEP : forall i m e, lookup m (translate (p_rule dst)) = Some e -> e_type e <> MCopy ->
    (i <> k \/ forall es, lookup m (translate (p_rule src)) = Some es -> e_type e <> e_type es) ->
    p_at d2 (e_type e) (slot (p_rule dst) i e) = p_at d1 (e_type e) (slot (p_rule dst) i e)).
  { intros i m e L T Q. apply U2. intros m0 es0 ed0 I L0 T0 C0 EQ. injection EQ as TT SS.
    destruct (slot_inj _ _ _ _ _ _ _ G L L0 TT SS) as (A & B). destruct Q as [Q|Q]; [contradiction|].
    subst m0. apply (Q es0); [apply in_lookup; assumption|congruence]. }
  split; [|split].
  - intros m es ed Ls Ld T. destruct (mdtype_eqb_spec (e_type es) MCopy) as [C|C].
    { unfold getPrm, getEntry. rewrite R2, Ld, Ls, T, C. reflexivity. }
    rewrite (GET k m ed) by (assumption || congruence). rewrite (getPrm_at src j m es Hs) by assumption. f_equal.
    apply (A2 m es ed); try assumption. apply lookup_in; exact Ls.
  - intros m ed Ld N. split.
    + intros Q. destruct (mdtype_eqb_spec (e_type ed) MCopy) as [C|C].
      { unfold getPrm, getEntry. rewrite R2, Ld, C. reflexivity. }
      rewrite (GET k m ed) by assumption. rewrite (getPrm_at dst k m ed Hd) by assumption. f_equal.
      rewrite (KEEP k m ed) by auto. apply (U1 k m); auto.
    + intros NC v De. destruct (decode_copyfree _ _ _ _ _ De) as (C & _). rewrite (GET k m ed) by assumption. f_equal.
      rewrite (KEEP k m ed) by auto. apply (D1 NC m); assumption.
  - intros i m Hi N. destruct (lookup m (translate (p_rule dst))) as [e|] eqn:L.
    2:{ unfold getPrm, getEntry. rewrite R2, L. reflexivity. }
    destruct (mdtype_eqb_spec (e_type e) MCopy) as [T|T].
    { unfold getPrm, getEntry. rewrite R2, L, T. reflexivity. }
    rewrite (GET i m e) by assumption. rewrite (getPrm_at dst i m e Hd) by assumption. f_equal.
    rewrite (KEEP i m e) by auto. apply (U1 i m); auto.
Qed.
Print Assumptions C30_different_rules.
Example C30_nonvacuous :
  let src := newParam (newRule [26; 20; 5] true false false) 2 in
  let dst := newParam (newRule [5; 14; 26] true false false) 3 in
  held src /\ held dst /\
  obind (setPrm 1 26 (VI 77) src) (fun s => obind (setPrm 2 14 (VI 5) dst) (fun d => obind (cpyPrm false 1 s 2 d) (fun d =>
    Some (getPrm 2 26 d, getPrm 2 14 d, getPrm 1 26 d)))) = Some (Some (VI 77), Some (VI 5), Some (VI 0)).
Proof. cbv zeta. split; [apply held_new; [apply reach_new|lia]|]. split; [apply held_new; [apply reach_new|lia]|]. vm_compute. reflexivity. Qed.

(** C31: integers that fit their header field come back unchanged. *)
Lemma integer_wf :
  forall p q sz buf buf' stride skip skip2,
  wf_param p -> wf_param q -> p_rule q = p_rule p -> usable (p_rule p) ->
  0 <= stride -> 0 <= sz -> 0 <= skip -> skip + sz <= p_sz p -> 0 <= skip2 -> skip2 + sz <= p_sz q ->
  insertParam sz p buf stride skip = Some buf' ->
  exists q', extractParam sz buf' 0 q stride skip2 = Some q' /\
  forall i m e z, 0 <= i < sz -> lookup m (translate (p_rule p)) = Some e ->
    (e_type e = MLong /\ in_s32 z \/ e_type e = MShort /\ in_s16 z) ->
    getPrm (i + skip) m p = Some (VI z) -> getPrm (i + skip2) m q' = Some (VI z).
Proof.
  intros p q sz buf buf' stride skip skip2 Hp Hq R (F & OK) Hs Hz Hk Hle Hk2 Hle2 H. 
  destruct (insert_extract _ _ _ _ _ _ q skip2 Hp Hq R F OK Hs Hz Hk Hle Hk2 Hle2 H) as (q' & E & _ & _ & _ & A).
  exists q'. split; [exact E|]. intros i m e z Hi L T V. specialize (A i m e Hi L).
  rewrite (getPrm_at p (i + skip) m e Hp L) in V by (first [lia | destruct T as [(-> & _)|(-> & _)]; discriminate]). injection V as V.
  destruct T as [(T & B)|(T & B)]; rewrite T in *; rewrite V in A; cbn [int_of] in A; rewrite A; do 2 f_equal; [apply s32_id|apply s16_id]; exact B.
Qed.
Theorem C31_integer_round_trip :
  forall p q sz buf buf' stride skip skip2,
  held p -> held q -> p_rule q = p_rule p -> usable (p_rule p) ->
  0 <= stride -> 0 <= sz -> 0 <= skip -> skip + sz <= p_sz p -> 0 <= skip2 -> skip2 + sz <= p_sz q ->
  insertParam sz p buf stride skip = Some buf' ->
  exists q', extractParam sz buf' 0 q stride skip2 = Some q' /\
  forall i m e z, 0 <= i < sz -> lookup m (translate (p_rule p)) = Some e ->
    (e_type e = MLong /\ in_s32 z \/ e_type e = MShort /\ in_s16 z) ->
    getPrm (i + skip) m p = Some (VI z) -> getPrm (i + skip2) m q' = Some (VI z).
Proof. intros p q sz buf buf' stride skip skip2 Hp Hq. apply integer_wf; apply held_wf; assumption. Qed.
Print Assumptions C31_integer_round_trip.
(** Without coordinates in the rule the write always succeeds. *)
Theorem C31_write_succeeds :
  forall p sz buf stride skip, held p -> (forall m e, lookup m (translate (p_rule p)) = Some e -> e_type e <> MFloat) ->
  0 <= skip -> skip + sz <= p_sz p -> exists buf', insertParam sz p buf stride skip = Some buf'.
Proof.
  intros p sz buf stride skip Hp NF Hk Hle. apply held_wf in Hp. apply insert_some_int; try assumption.
  intros m e I. destruct Hp as ((ND & _) & _). apply (NF m). apply in_lookup; assumption.
Qed.
Print Assumptions C31_write_succeeds.
Example C31_nonvacuous :
  let p := newParam (newRule [26; 9] true true false) 3 in
  held p /\ usable (p_rule p) /\
  obind (setPrm 2 26 (VI (-123456)) p) (fun p => obind (setPrm 2 9 (VI (-7)) p) (fun p =>
  obind (insertParam 2 p (fun _ => 0) 40 1) (fun b => obind (extractParam 2 b 0 (newParam (p_rule p) 2) 40 0) (fun q =>
    Some (getPrm 1 26 q, getPrm 1 9 q))))) = Some (Some (VI (-123456)), Some (VI (-7))).
Proof. cbv zeta. split; [apply held_new; [apply reach_new|lia]|]. split; [apply predefined_usable, pre_new|vm_compute; reflexivity]. Qed.

(** C32 refuted: a Long of 2^32 is accepted, written and read back as 0. *)
Theorem C32_wide_value_refuted :
  exists p p' b q', held p /\ setPrm 0 26 (VI 4294967296) p = Some p' /\ getPrm 0 26 p' = Some (VI 4294967296) /\
  insertParam 1 p' (fun _ => 0) 0 0 = Some b /\ extractParam 1 b 0 p 0 0 = Some q' /\ getPrm 0 26 q' = Some (VI 0).
Proof.
  set (p := newParam (newRule [26] true false false) 1).
  assert (H : obind (setPrm 0 26 (VI 4294967296) p) (fun p' => obind (getPrm 0 26 p') (fun v => obind (insertParam 1 p' (fun _ => 0) 0 0) (fun b =>
    obind (extractParam 1 b 0 p 0 0) (fun q' => obind (getPrm 0 26 q') (fun w => Some (v, w)))))) = Some (VI 4294967296, VI 0)) by (vm_compute; reflexivity).
  chain H. injection H as -> ->. exists p. do 3 eexists. split; [apply held_new; [apply reach_new|lia]|]. repeat (split; [eassumption|]). assumption.
Qed.
Print Assumptions C32_wide_value_refuted.

(** C33: the bytes written do not depend on the order in which the rule's map is
    iterated. *)
Theorem C33_order_independent :
  forall p p' sz buf buf' stride skip,
  held p -> usable (p_rule p) -> full_rule (p_rule p') -> 0 <= stride -> 0 <= sz ->
  Permutation (translate (p_rule p)) (translate (p_rule p')) -> counts (p_rule p') = counts (p_rule p) ->
  p_len p' = p_len p -> p_at p' = p_at p ->
  insertParam sz p buf stride skip = Some buf' ->
  exists buf2, insertParam sz p' buf stride skip = Some buf2 /\ forall x, buf2 x = buf' x.
Proof.
  intros p p' sz buf buf' stride skip Hp (F & OK) F' Hs Hz P C L A H. apply held_wf in Hp. destruct Hp as ((ND & _) & _).
  apply (insert_perm sz p p' buf stride skip buf'); try assumption. repeat split; assumption.
Qed.
Print Assumptions C33_order_independent.
Example C33_nonvacuous :
  let r := newRule [20; 21] true false false in
  let r' := mkRule (counts r) (rev (translate r)) (r_start r) (r_end r) (r_bad r) (r_full r) in
  let p := newParam r 1 in
  obind (setPrm 0 20 (VF (d_bin 1 (-1))) p) (fun p => obind (setPrm 0 21 (VF (d_bin 1 (-2))) p) (fun p =>
  let p' := mkParam r' (p_sz p) (p_len p) (p_at p) in
  obind (insertParam 1 p (fun _ => 0) 0 0) (fun b => obind (insertParam 1 p' (fun _ => 0) 0 0) (fun b' =>
    Some (rd16 b 70, rd32 b 72, rd32 b 76, rd16 b' 70, rd32 b' 72, rd32 b' 76))))) = Some (-100, 50, 25, -100, 50, 25) /\
  Permutation (translate r) (translate r').
Proof. cbv zeta. split; [vm_compute; reflexivity|]. cbn [translate]. apply Permutation_rev. Qed.

(** C34: a coordinate whose scaled integer fits 32 bits comes back within half a
    unit of the scale factor stored in the header (plus 2^-51 relative). *)
Lemma coordinate_wf :
  forall p q sz buf buf' stride skip skip2,
  wf_param p -> wf_param q -> p_rule q = p_rule p -> usable (p_rule p) ->
  0 <= stride -> 0 <= sz -> 0 <= skip -> skip + sz <= p_sz p -> 0 <= skip2 -> skip2 + sz <= p_sz q ->
  insertParam sz p buf stride skip = Some buf' ->
  exists q', extractParam sz buf' 0 q stride skip2 = Some q' /\
  forall i m e v, 0 <= i < sz -> lookup m (translate (p_rule p)) = Some e -> e_type e = MFloat ->
    getPrm (i + skip) m p = Some (VF v) -> is_finite v = true ->
    let g := parse_scalar (rd16 buf' ((240 + stride) * i + (e_scal e - 1))) in
    exists n, dlround (ddiv v g) = Some n /\
    (in_s32 n -> exists out, getPrm (i + skip2) m q' = Some (VF out) /\ is_finite out = true /\
       (Rabs (B2R out - B2R v) <= B2R g / 2 + / 2251799813685248 * (Rabs (B2R v) + B2R g))%R).
Proof.
  intros p q sz buf buf' stride skip skip2 Hp Hq R (F & OK) Hs Hz Hk Hle Hk2 Hle2 H. 
  destruct (insert_extract _ _ _ _ _ _ q skip2 Hp Hq R F OK Hs Hz Hk Hle Hk2 Hle2 H) as (q' & E & _ & _ & _ & A).
  exists q'. split; [exact E|]. intros i m e v Hi L T V Fv. specialize (A i m e Hi L). rewrite T in A.
  rewrite (getPrm_at p (i + skip) m e Hp L) in V by (congruence || lia). rewrite T in V. injection V as V. rewrite V in A. cbn [dbl_of] in A.
  destruct A as (cs & n & A1 & A2 & A3 & A4).
  assert (IR : in_s16 (fold_left combine cs 1)).
  { apply combine_fold_range; [unfold in_s16; lia|]. apply all_some_map in A1. apply Forall_forall. intros s Is.
    assert (X : In (Some s) (cands p (i + skip) (e_scal e) (map snd (translate (p_rule p))))) by (rewrite A1; apply in_map; exact Is).
    unfold cands in X. apply in_map_iff in X. destruct X as (e0 & X & _). destruct (val_of p (i + skip) e0) as [v0|]; [|discriminate].
    apply (find_scalar_range _ _ X). }
  rewrite A3, (s16_id _ IR). rewrite (s16_id _ IR) in A4. cbv zeta. exists n. split; [exact A2|]. intros Hn.
  destruct (scaled_round_trip v _ n Fv IR A2 Hn) as (Fo & B). eexists. split; [rewrite A4, (s32_id n Hn); reflexivity|]. split; [exact Fo|exact B].
Qed.
Theorem C34_coordinate_precision :
  forall p q sz buf buf' stride skip skip2,
  held p -> held q -> p_rule q = p_rule p -> usable (p_rule p) ->
  0 <= stride -> 0 <= sz -> 0 <= skip -> skip + sz <= p_sz p -> 0 <= skip2 -> skip2 + sz <= p_sz q ->
  insertParam sz p buf stride skip = Some buf' ->
  exists q', extractParam sz buf' 0 q stride skip2 = Some q' /\
  forall i m e v, 0 <= i < sz -> lookup m (translate (p_rule p)) = Some e -> e_type e = MFloat ->
    getPrm (i + skip) m p = Some (VF v) -> is_finite v = true ->
    let g := parse_scalar (rd16 buf' ((240 + stride) * i + (e_scal e - 1))) in
    exists n, dlround (ddiv v g) = Some n /\
    (in_s32 n -> exists out, getPrm (i + skip2) m q' = Some (VF out) /\ is_finite out = true /\
       (Rabs (B2R out - B2R v) <= B2R g / 2 + / 2251799813685248 * (Rabs (B2R v) + B2R g))%R).
Proof. intros p q sz buf buf' stride skip skip2 Hp Hq. apply coordinate_wf; apply held_wf; assumption. Qed.
Print Assumptions C34_coordinate_precision.
Example C34_nonvacuous :
  let p := newParam (newRule [20] true false false) 1 in
  held p /\ usable (p_rule p) /\ is_finite (d_bin 987654321 (-10)) = true /\
  obind (setPrm 0 20 (VF (d_bin 987654321 (-10))) p) (fun p => obind (insertParam 1 p (fun _ => 0) 0 0) (fun b =>
    Some (rd16 b 70, rd32 b 72))) = Some (-1000, 964506173).
Proof. cbv zeta. split; [apply held_new; [apply reach_new|lia]|]. split; [apply predefined_usable, pre_new|]. split; vm_compute; reflexivity. Qed.

(** C35 refuted: 0.3 comes back as 0.30000000000000004. *)
Definition d0_3 : D := d_bin 5404319552844595 (-54).
Theorem C35_decimal_refuted :
  exists p p' b q' out, held p /\ setPrm 0 20 (VF d0_3) p = Some p' /\
  insertParam 1 p' (fun _ => 0) 0 0 = Some b /\ rd16 b 70 = -10 /\ rd32 b 72 = 3 /\
  extractParam 1 b 0 p 0 0 = Some q' /\ getPrm 0 20 q' = Some (VF out) /\ dltb d0_3 out = true.
Proof.
  set (p := newParam (newRule [20] true false false) 1).
  assert (H : obind (setPrm 0 20 (VF d0_3) p) (fun p' => obind (insertParam 1 p' (fun _ => 0) 0 0) (fun b =>
    obind (extractParam 1 b 0 p 0 0) (fun q' => obind (getPrm 0 20 q') (fun w =>
      obind (match w with VF o => Some o | VI _ => None end) (fun o => Some (rd16 b 70, rd32 b 72, dltb d0_3 o)))))) = Some (-10, 3, true)) by (vm_compute; reflexivity).
  chain H. injection H as H1 H2 H3. destruct v as [o|]; [|discriminate]. injection E3 as ->.
  exists p. do 4 eexists. split; [apply held_new; [apply reach_new|lia]|]. repeat (split; [eassumption|]). assumption.
Qed.
Print Assumptions C35_decimal_refuted.
(** C35 (part): if all coordinates of a trace that share a scale factor are whole
    numbers within 32 bits, each comes back as the same double. *)
Lemma whole_wf :
  forall p q sz buf buf' stride skip skip2,
  wf_param p -> wf_param q -> p_rule q = p_rule p -> usable (p_rule p) ->
  0 <= stride -> 0 <= sz -> 0 <= skip -> skip + sz <= p_sz p -> 0 <= skip2 -> skip2 + sz <= p_sz q ->
  insertParam sz p buf stride skip = Some buf' ->
  exists q', extractParam sz buf' 0 q stride skip2 = Some q' /\
  forall i m e, 0 <= i < sz -> lookup m (translate (p_rule p)) = Some e -> e_type e = MFloat ->
    (forall m' e', lookup m' (translate (p_rule p)) = Some e' -> e_type e' = MFloat -> e_scal e' = e_scal e ->
       exists z, in_s32 z /\ getPrm (i + skip) m' p = Some (VF (d_of_Z z))) ->
    getPrm (i + skip2) m q' = getPrm (i + skip) m p.
Proof.
  intros p q sz buf buf' stride skip skip2 Hp Hq R (F & OK) Hs Hz Hk Hle Hk2 Hle2 H. 
  destruct (insert_extract _ _ _ _ _ _ q skip2 Hp Hq R F OK Hs Hz Hk Hle Hk2 Hle2 H) as (q' & E & _ & _ & _ & A).
  exists q'. split; [exact E|]. intros i m e Hi L T W. specialize (A i m e Hi L). rewrite T in A.
  destruct A as (cs & n & A1 & A2 & _ & A4).
  assert (ONE : fold_left combine cs 1 = 1).
  { apply all_some_map in A1.
    assert (O : Forall (fun s => s = 1) cs).
    { apply Forall_forall. intros s Is.
      assert (X : In (Some s) (cands p (i + skip) (e_scal e) (map snd (translate (p_rule p))))) by (rewrite A1; apply in_map; exact Is).
      unfold cands in X. apply in_map_iff in X. destruct X as (e0 & X & I). apply filter_In in I. destruct I as (I & B).
      apply in_map_iff in I. destruct I as ((m0 & e1) & <- & I). cbn [snd] in *. destruct Hp as ((ND & Hp1) & Hp2).
      apply (in_lookup _ _ _ ND) in I. apply andb_true_iff in B. destruct B as (B1 & B2). apply Z.eqb_eq in B2.
      assert (B3 : e_type e1 = MFloat) by (destruct (mdtype_eqb_spec (e_type e1) MFloat); [assumption|discriminate]).
      destruct (W m0 e1 I B3 B2) as (z & Hzz & G).
      rewrite (val_of_some p (i + skip) m0 e1) in X by (assumption || (split; [split; assumption|assumption]) || congruence || lia).
      rewrite (getPrm_at p (i + skip) m0 e1) in G by (assumption || (split; [split; assumption|assumption]) || congruence || lia).
      injection G as G. rewrite G in X. cbn [obind dbl_of] in X. rewrite find_scalar_int in X by exact Hzz. congruence. }
    clear - O. induction cs as [|c cs IH]; [reflexivity|]. inversion O; subst. cbn. apply IH. assumption. }
  rewrite ONE in *. destruct (W m e L T eq_refl) as (z & Hzz & G). rewrite G.
  rewrite (getPrm_at p (i + skip) m e Hp L) in G by (congruence || lia). rewrite T in G. injection G as G. rewrite G in A2. cbn [dbl_of] in A2.
  destruct (int_round_trip z Hzz) as (I1 & I2). rewrite I1 in A2. injection A2 as <-. rewrite A4, (s32_id z Hzz).
  change (s16 1) with 1. rewrite I2. reflexivity.
Qed.
Theorem C35_whole_numbers_partial :
  forall p q sz buf buf' stride skip skip2,
  held p -> held q -> p_rule q = p_rule p -> usable (p_rule p) ->
  0 <= stride -> 0 <= sz -> 0 <= skip -> skip + sz <= p_sz p -> 0 <= skip2 -> skip2 + sz <= p_sz q ->
  insertParam sz p buf stride skip = Some buf' ->
  exists q', extractParam sz buf' 0 q stride skip2 = Some q' /\
  forall i m e, 0 <= i < sz -> lookup m (translate (p_rule p)) = Some e -> e_type e = MFloat ->
    (forall m' e', lookup m' (translate (p_rule p)) = Some e' -> e_type e' = MFloat -> e_scal e' = e_scal e ->
       exists z, in_s32 z /\ getPrm (i + skip) m' p = Some (VF (d_of_Z z))) ->
    getPrm (i + skip2) m q' = getPrm (i + skip) m p.
Proof. intros p q sz buf buf' stride skip skip2 Hp Hq. apply whole_wf; apply held_wf; assumption. Qed.
Print Assumptions C35_whole_numbers_partial.
Example C35_nonvacuous :
  let p := newParam (newRule [20; 21] true false false) 1 in
  obind (setPrm 0 20 (VF (d_of_Z 123456)) p) (fun p1 => obind (setPrm 0 21 (VF (d_of_Z (-5))) p1) (fun p1 =>
  obind (insertParam 1 p1 (fun _ => 0) 0 0) (fun b => obind (extractParam 1 b 0 p 0 0) (fun q =>
   obind (getPrm 0 21 q) (fun v => Some (rd16 b 70, rd32 b 72, deqb (dbl_of v) (d_of_Z (-5)))))))) = Some (1, 123456, true).
Proof. vm_compute. reflexivity. Qed.

(** C36 refuted: 0.0001 and 1000000 are each stored well on their own, but
    together the second comes back as about 141006. *)
Definition d0_0001 : D := d_bin 7378697629483821 (-66).
Definition two_coordinates (x y : D) : option (Z * Z * Z * value * value) :=
  let p := newParam (newRule [20; 21] true false false) 1 in
  obind (setPrm 0 20 (VF x) p) (fun p1 => obind (setPrm 0 21 (VF y) p1) (fun p1 =>
  obind (insertParam 1 p1 (fun _ => 0) 0 0) (fun b => obind (extractParam 1 b 0 p 0 0) (fun q =>
  obind (getPrm 0 20 q) (fun v => obind (getPrm 0 21 q) (fun w => Some (rd16 b 70, rd32 b 72, rd32 b 76, v, w))))))).
Definition outcome (o : option (Z * Z * Z * value * value)) (x y : D) : option (Z * Z * Z * bool * bool) :=
  option_map (fun r => match r with (s, a, b, v, w) => (s, a, b, deqb (dbl_of v) x, deqb (dbl_of w) y) end) o.
Theorem C36_shared_scale_refuted :
  (* alone, each is stored and read back as the same double *)
  outcome (two_coordinates d0_0001 (d_of_Z 0)) d0_0001 (d_of_Z 0) = Some (-10000, 1, 0, true, true) /\
  outcome (two_coordinates (d_of_Z 0) (d_of_Z 1000000)) (d_of_Z 0) (d_of_Z 1000000) = Some (1, 0, 1000000, true, true) /\
  (* together, the second is lost *)
  outcome (two_coordinates d0_0001 (d_of_Z 1000000)) d0_0001 (d_of_Z 1000000) = Some (-10000, 1, 1410065408, true, false).
Proof. repeat split; vm_compute; reflexivity. Qed.
Print Assumptions C36_shared_scale_refuted.

(** C37: reading a header with the COPY entry, changing any entries, and writing
    reproduces every header byte no other entry of the rule covers. *)
Inductive edited : param -> param -> Prop :=
| edited_none p : edited p p
| edited_set p p1 i m v p2 : edited p p1 -> setPrm i m v p1 = Some p2 -> edited p p2.
Lemma edited_shape p p' : edited p p' -> shape p p' /\ p_rule p' = p_rule p /\ forall x, p_at p' MCopy x = p_at p MCopy x.
Proof.
  induction 1 as [p|p p1 i m v p2 _ IH E]; [split; [apply shape_refl|auto]|]. destruct IH as (A & B & C). split; [|split].
  - eapply shape_trans; [exact A|apply (setPrm_shape _ _ _ _ _ E)].
  - rewrite <- B. revert E. unfold setPrm. destruct (getEntry m (p_rule p1)) as [e|]; [|discriminate].
    destruct (e_type e); try (intros X; injection X as <-; reflexivity); (destruct (convert _ v); [|discriminate]); cbn [obind]; unfold set_slot;
      (destruct (_ && _); [|discriminate]); intros X; injection X as <-; reflexivity.
  - intros x. rewrite (setPrm_copy _ _ _ _ _ E). apply C.
Qed.
(** byte x (from 0) of a header is part of a field of the rule *)
Definition covered (r : rule) (x : Z) : Prop :=
  exists m e a, lookup m (translate r) = Some e /\ In a (efields e) /\ fst a <= x + 1 < fst a + snd a.
Theorem C37_uncovered_bytes :
  forall p q q' sz hdr b0 stride skip buf buf' stride2,
  held p -> usable (p_rule p) -> counts (p_rule p) MCopy <> 0 ->
  0 <= stride2 -> 0 <= sz -> 0 <= skip -> skip + sz <= p_sz p ->
  extractParam sz hdr b0 p stride skip = Some q -> edited q q' -> insertParam sz q' buf stride2 skip = Some buf' ->
  forall i x, 0 <= i < sz -> 0 <= x < 240 -> ~ covered (p_rule p) x ->
  buf' ((240 + stride2) * i + x) = hdr (b0 + (240 + stride) * i + x).
Proof.
  intros p q q' sz hdr b0 stride skip buf buf' stride2 Hp (F & OK) NC Hs2 Hz Hk Hle E ED H i x Hi Hx NCov. apply held_wf in Hp.
  destruct (extract_spec sz hdr b0 p stride skip Hp F Hz Hk Hle) as (q0 & E' & W & R & S & L & _ & C & _). rewrite E in E'. injection E' as <-.
  destruct (edited_shape _ _ ED) as (Sh & R' & C').
  destruct (insert_bytes sz q' buf stride2 skip buf') as (IB & _); try assumption; [congruence|rewrite R', R; exact OK|].
  destruct (IB i Hi) as (cw & ws & CW & TW & B). rewrite B by lia.
  rewrite (uncovered_byte q' _ _ _ _ x TW).
  - rewrite (copy_write_byte q' (i + skip) _ cw) by (assumption || (rewrite R', R; assumption)). rewrite C', C by assumption. reflexivity.
  - intros k e a I A Cov. apply NCov. exists k, e, a. rewrite R', R in I. split; [|split; assumption].
    apply in_lookup; [|exact I]. destruct Hp as ((ND & _) & _). exact ND.
Qed.
Print Assumptions C37_uncovered_bytes.
(** Without changes, and with a rule that has no coordinates, the whole header
    is reproduced. *)
Theorem C37_whole_header_partial :
  forall p q sz hdr b0 stride skip buf buf' stride2,
  held p -> usable (p_rule p) -> counts (p_rule p) MCopy <> 0 ->
  (forall m e, lookup m (translate (p_rule p)) = Some e -> e_type e <> MFloat) ->
  (forall a, is_byte (hdr a)) -> 0 <= stride2 -> 0 <= sz -> 0 <= skip -> skip + sz <= p_sz p ->
  extractParam sz hdr b0 p stride skip = Some q -> insertParam sz q buf stride2 skip = Some buf' ->
  forall i x, 0 <= i < sz -> 0 <= x < 240 -> buf' ((240 + stride2) * i + x) = hdr (b0 + (240 + stride) * i + x).
Proof.
  intros p q sz hdr b0 stride skip buf buf' stride2 Hp (F & OK) NC NF HB Hs2 Hz Hk Hle E H i x Hi Hx. apply held_wf in Hp.
  destruct (extract_spec sz hdr b0 p stride skip Hp F Hz Hk Hle) as (q0 & E' & W & R & S & L & A & C & _). rewrite E in E'. injection E' as <-.
  destruct (insert_bytes sz q buf stride2 skip buf') as (IB & _); try assumption; [congruence|rewrite R; exact OK|].
  destruct (IB i Hi) as (cw & ws & CW & TW & B). rewrite B by lia. set (base := (240 + stride2) * i) in *.
  pose proof W as ((ND & _) & _). rewrite R in ND.
  assert (OKq : fields_ok (p_rule q)) by (rewrite R; exact OK). assert (NDq : NoDup (map fst (translate (p_rule q)))) by (rewrite R; exact ND).
  destruct (existsb (fun w => if covers_dec w (base + x) then true else false) ws) eqn:X.
  - apply existsb_exists in X. destruct X as (w & I & X). destruct (covers_dec w (base + x)) as [Cv|]; [|discriminate].
    rewrite (field_read q _ _ _ _ NDq OKq TW _ w _ I Cv).
    destruct (trace_writes_inv _ _ _ _ _ TW) as (sc & Sc & D). apply D in I.
    destruct I as [(m & e & I & l & IW & J)|[(y & I & _)|(m & e & I & l & FW & J)]].
    + rewrite R in I. pose proof (in_lookup _ _ _ ND I) as Lk.
      pose proof (int_write_inv _ _ _ _ _ _ _ IW J) as (-> & _ & T).
      assert (V : val_of q (i + skip) e = Some (p_at q (e_type e) (slot (p_rule q) (i + skip) e))).
      { apply (val_of_some q (i + skip) m); [exact W|rewrite R; exact Lk|destruct T; congruence|lia]. }
      rewrite R in V. unfold int_write in IW. set (hb := b0 + (240 + stride) * i) in *.
      destruct T as [T|T]; rewrite T in IW; rewrite V in IW; cbn [obind] in IW; injection IW as <-.
      * assert (De : decode hdr 0 hb e = Some (VI (rd16 hdr (hb + (e_loc e - 0 - 1))))) by (unfold decode; rewrite T; reflexivity).
        rewrite (A i m e _ Hi I De) in Cv |- *. cbn [int_of] in *. unfold rd16 in *. rewrite enc16_dec in * by apply HB.
        unfold covers in Cv. cbn [fst snd length] in Cv. unfold wbyte. cbn [fst snd].
        assert (Q : base + x - (base + (e_loc e - 0 - 1)) = 0 \/ base + x - (base + (e_loc e - 0 - 1)) = 1) by lia.
        destruct Q as [Q|Q]; rewrite Q; cbn [Z.to_nat nth Pos.to_nat Pos.iter_op]; apply (f_equal hdr); unfold hb; lia.
      * assert (De : decode hdr 0 hb e = Some (VI (rd32 hdr (hb + (e_loc e - 0 - 1))))) by (unfold decode; rewrite T; reflexivity).
        rewrite (A i m e _ Hi I De) in Cv |- *. cbn [int_of] in *.
        replace (s32 (rd32 hdr (hb + (e_loc e - 0 - 1)))) with (rd32 hdr (hb + (e_loc e - 0 - 1))) in * by
          (symmetry; apply s32_id; unfold rd32, from_be_int32; apply s32_range).
        unfold rd32 in *. destruct (enc32_dec _ _ _ _ (HB (hb + (e_loc e - 0 - 1))) (HB (hb + (e_loc e - 0 - 1) + 1)) (HB (hb + (e_loc e - 0 - 1) + 2)) (HB (hb + (e_loc e - 0 - 1) + 3))) as (EN & _). rewrite EN in *. clear EN.
        unfold covers in Cv. cbn [fst snd length] in Cv. unfold wbyte. cbn [fst snd].
        assert (Q : base + x - (base + (e_loc e - 0 - 1)) = 0 \/ base + x - (base + (e_loc e - 0 - 1)) = 1 \/
          base + x - (base + (e_loc e - 0 - 1)) = 2 \/ base + x - (base + (e_loc e - 0 - 1)) = 3) by lia.
        destruct Q as [Q|[Q|[Q|Q]]]; rewrite Q; cbn [Z.to_nat nth Pos.to_nat Pos.iter_op Nat.add]; apply (f_equal hdr); unfold hb; lia.
    + exfalso. destruct y as [loc s]. destruct (scales_used _ _ _ _ Sc loc s I) as (e & J & T & _). apply in_map_iff in J.
      destruct J as ((m & e') & <- & J). rewrite R in J. apply (NF m e'); [apply in_lookup; assumption|exact T].
    + exfalso. destruct (float_write_inv _ _ _ _ _ _ _ _ FW J) as (_ & _ & T). rewrite R in I. apply (NF m e); [apply in_lookup; assumption|exact T].
  - rewrite writes_out.
    + unfold base. rewrite (copy_write_byte q (i + skip) _ cw) by (assumption || (rewrite R; assumption)). rewrite C by assumption. reflexivity.
    + intros w I Cv. rewrite <- not_true_iff_false in X. apply X. apply existsb_exists. exists w. split; [exact I|].
      destruct (covers_dec w (base + x)); [reflexivity|contradiction].
Qed.
Print Assumptions C37_whole_header_partial.
(** Refuted with coordinates: a zero scale factor (valid, meaning 1) is replaced. *)
Theorem C37_scale_refuted :
  exists p q buf', held p /\ counts (p_rule p) MCopy <> 0 /\
  extractParam 1 (fun _ => 0) 0 p 0 0 = Some q /\ insertParam 1 q (fun _ => 0) 0 0 = Some buf' /\ buf' 71 = 1.
Proof.
  set (p := newParam (newRule [0; 20] true false false) 1).
  assert (H : obind (extractParam 1 (fun _ => 0) 0 p 0 0) (fun q => obind (insertParam 1 q (fun _ => 0) 0 0) (fun b => Some (b 71))) = Some 1) by (vm_compute; reflexivity).
  chain H. injection H as H. exists p. do 2 eexists. split; [apply held_new; [apply reach_new|lia]|].
  split; [discriminate|]. repeat (split; [eassumption|]). assumption.
Qed.
Print Assumptions C37_scale_refuted.
Example C37_nonvacuous :
  let p := newParam (newRule [0; 26] true false false) 1 in
  held p /\ usable (p_rule p) /\ counts (p_rule p) MCopy <> 0 /\
  obind (extractParam 1 (fun a => a mod 256) 0 p 0 0) (fun q => obind (setPrm 0 26 (VI 0) q) (fun q =>
    option_map (fun b => (b 187, b 188, b 192)) (insertParam 1 q (fun _ => 0) 8 0))) = Some (187, 0, 192).
Proof.
  cbv zeta. split; [apply held_new; [apply reach_new|lia]|]. split; [apply predefined_usable, pre_new|]. split; [discriminate|vm_compute; reflexivity].
Qed.

(** C38: the value of a scale factor: 0 means 1, positive multiplies, negative
    divides (the quotient rounded to the nearest double). *)
Theorem C38_scale_convention :
  forall s, in_s16 s -> is_finite (parse_scalar s) = true /\
  (s = 0 -> B2R (parse_scalar s) = 1%R) /\ (0 < s -> B2R (parse_scalar s) = IZR s) /\
  (s < 0 -> B2R (parse_scalar s) = round radix2 (FLT_exp (-1074) 53) ZnearestE (1 / IZR (- s))%R).
Proof.
  intros s H. destruct (parse_value s H) as (F & V & _). split; [exact F|]. unfold val in V. rewrite V. split; [|split].
  - intros ->. reflexivity.
  - intros P. destruct (Z.eqb_spec s 0); [lia|]. destruct (Z.ltb_spec 0 s); [reflexivity|lia].
  - intros P. destruct (Z.eqb_spec s 0); [lia|]. destruct (Z.ltb_spec 0 s); [lia|reflexivity].
Qed.
Print Assumptions C38_scale_convention.
Example C38_nonvacuous : deqb (dmul (parse_scalar (-4)) (d_of_Z 10)) (d_bin 5 (-1)) = true /\ deqb (parse_scalar 0) (d_of_Z 1) = true.
Proof. split; vm_compute; reflexivity. Qed.
