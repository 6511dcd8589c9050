From Coq Require Import Permutation.
From Verif Require Import Base NumEncModel NumEncProofs DataIOModel RuleModel RuleProofs DoubleModel ParamModel ParamProofs.

Lemma s32_in z : in_s32 (s32 z).
Proof. unfold in_s32, s32, two32. pose proof (Z.mod_pos_bound (z + 2147483648) 4294967296 ltac:(lia)). lia. Qed.

(** ---- reading a written field ---- *)
Section Fields.
Variables (p : param) (tr start base : Z) (ws : list (Z * list Z)).
Hypothesis ND : NoDup (map fst (translate (p_rule p))).
Hypothesis OK : fields_ok (p_rule p).
Hypothesis H : trace_writes p tr start base = Some ws.
Lemma field_read m w x : In w ws -> covers w x -> apply_writes ws m x = wbyte w x.
Proof. intros I C. apply writes_at; [eauto|]. intros v Iv Cv. rewrite (trace_write_unique _ _ _ _ _ ND OK H w v x); auto. Qed.
Lemma field_bytes m w k : In w ws -> 0 <= k < Z.of_nat (length (snd w)) -> apply_writes ws m (fst w + k) = nth (Z.to_nat k) (snd w) 0.
Proof. intros I Hk. rewrite (field_read m w); [|exact I|unfold covers; lia]. unfold wbyte. f_equal. lia. Qed.
Lemma field16 m a v : In (a, to_big_endian 2 v) ws -> rd16 (apply_writes ws m) a = s16 v.
Proof. intros I. apply rd16_written. intros k Hk. apply (field_bytes m _ k I). cbn [snd]. rewrite be_len. lia. Qed.
Lemma field32 m a v : In (a, to_big_endian 4 v) ws -> rd32 (apply_writes ws m) a = s32 v.
Proof. intros I. apply rd32_written. intros k Hk. apply (field_bytes m _ k I). cbn [snd]. rewrite be_len. lia. Qed.
End Fields.

Lemma val_of_some p tr m e : wf_param p -> lookup m (translate (p_rule p)) = Some e -> e_type e <> MCopy -> 0 <= tr < p_sz p ->
  val_of p tr e = Some (p_at p (e_type e) (slot (p_rule p) tr e)).
Proof. intros W L T Ht. unfold val_of. apply get_slot_some. apply (slot_bounds p tr m); assumption. Qed.
Lemma read_int p tr start base ws m k e : wf_param p -> fields_ok (p_rule p) -> trace_writes p tr start base = Some ws ->
  0 <= tr < p_sz p -> lookup k (translate (p_rule p)) = Some e ->
  (e_type e = MLong -> rd32 (apply_writes ws m) (base + (e_loc e - start - 1)) = s32 (int_of (p_at p MLong (slot (p_rule p) tr e)))) /\
  (e_type e = MShort -> rd16 (apply_writes ws m) (base + (e_loc e - start - 1)) = s16 (int_of (p_at p MShort (slot (p_rule p) tr e)))).
Proof.
  intros W OK H Ht L. pose proof W as ((ND & _) & _). destruct (trace_writes_inv _ _ _ _ _ H) as (sc & _ & C).
  assert (I := lookup_in _ _ _ L). split; intros T.
  - rewrite (field32 p tr start base ws ND OK H m _ (s32 (int_of (p_at p MLong (slot (p_rule p) tr e))))).
    + apply s32_id, s32_in.
    + apply C. left. exists k, e. split; [exact I|]. unfold int_write. rewrite T, (val_of_some p tr k e W L) by (congruence || assumption).
      cbn [obind]. rewrite T. eexists. split; [reflexivity|left; reflexivity].
  - apply (field16 p tr start base ws ND OK H m).
    apply C. left. exists k, e. split; [exact I|]. unfold int_write. rewrite T, (val_of_some p tr k e W L) by (congruence || assumption).
    cbn [obind]. rewrite T. eexists. split; [reflexivity|left; reflexivity].
Qed.
Lemma read_float p tr start base ws m k e : wf_param p -> fields_ok (p_rule p) -> trace_writes p tr start base = Some ws ->
  0 <= tr < p_sz p -> lookup k (translate (p_rule p)) = Some e -> e_type e = MFloat ->
  exists cs q, all_some (cands p tr (e_scal e) (map snd (translate (p_rule p)))) = Some cs /\
  dlround (ddiv (dbl_of (p_at p MFloat (slot (p_rule p) tr e))) (parse_scalar (fold_left combine cs 1))) = Some q /\
  rd16 (apply_writes ws m) (base + (e_scal e - start - 1)) = s16 (fold_left combine cs 1) /\
  rd32 (apply_writes ws m) (base + (e_loc e - start - 1)) = s32 q.
Proof.
  intros W OK H Ht L T. pose proof W as ((ND & _) & _). destruct (trace_writes_inv _ _ _ _ _ H) as (sc & S & C).
  assert (I := lookup_in _ _ _ L).
  destruct (scal_fold p tr _ [] sc (NoDup_nil _) S) as (NDs & G). destruct (G (e_scal e)) as (cs & C1 & C2). cbn [sc_get] in C2.
  assert (N : cs <> []).
  { intros ->. apply (f_equal (option_map (@length Z))) in C1. revert C1. unfold cands.
    assert (J : In e (filter (fun e0 => mdtype_eqb (e_type e0) MFloat && (e_scal e0 =? e_scal e)) (map snd (translate (p_rule p))))).
    { apply filter_In. split; [apply (in_map snd) in I; exact I|]. rewrite T, Z.eqb_refl. reflexivity. }
    destruct (filter _ _) as [|e0 l]; [destruct J|]. cbn [map all_some].
    destruct (obind _ _); [|discriminate]. destruct (all_some _); discriminate. }
  assert (SC : sc_get sc (e_scal e) = Some (fold_left combine cs 1)) by (destruct cs; [contradiction|exact C2]).
  unfold trace_writes in H. destruct (omap (int_write p tr start base) _) as [iw|] eqn:E1; [|discriminate]. cbn [obind] in H.
  rewrite S in H. cbn [obind] in H. destruct (omap (float_write p tr start base sc) _) as [fw|] eqn:E2; [|discriminate].
  assert (H' : trace_writes p tr start base = Some ws) by (unfold trace_writes; rewrite E1; cbn [obind]; rewrite S; cbn [obind]; rewrite E2; exact H).
  destruct (omap_total _ _ _ E2 e) as (y & F & J); [apply (in_map snd) in I; exact I|].
  unfold float_write in F. rewrite T, (val_of_some p tr k e W L) in F by (congruence || assumption). cbn [obind] in F.
  rewrite SC in F. cbn [obind] in F. rewrite T in F. destruct (dlround _) as [q|] eqn:Q in F; [|discriminate]. cbn [obind] in F.
  exists cs, q. split; [exact C1|]. split; [exact Q|]. split.
  - apply (field16 p tr start base ws ND OK H' m). apply C. right; left. exists (e_scal e, fold_left combine cs 1).
    split; [apply sc_get_in; exact SC|reflexivity].
  - replace (s32 q) with (s32 (s32 q)) by (apply s32_id, s32_in).
    apply (field32 p tr start base ws ND OK H' m). apply C. right; right. exists k, e. split; [exact I|].
    exists y. split; [|injection F as <-; left; reflexivity].
    unfold float_write. rewrite T, (val_of_some p tr k e W L) by (congruence || assumption). cbn [obind]. rewrite SC. cbn [obind].
    rewrite T, Q. exact F.
Qed.

Lemma rd16_ext m m' a : m a = m' a -> m (a + 1) = m' (a + 1) -> rd16 m a = rd16 m' a.
Proof. unfold rd16. intros -> ->. reflexivity. Qed.
Lemma rd32_ext m m' a : (forall k, 0 <= k < 4 -> m (a + k) = m' (a + k)) -> rd32 m a = rd32 m' a.
Proof.
  intros H. unfold rd32. rewrite (H 1), (H 2), (H 3) by lia. pose proof (H 0 ltac:(lia)) as H0. rewrite Z.add_0_r in H0. rewrite H0. reflexivity.
Qed.
Lemma decode_ext r m m' base e k : fields_ok r -> In (k, e) (translate r) ->
  (forall x, base <= x < base + 240 -> m x = m' x) -> decode m 0 base e = decode m' 0 base e.
Proof.
  intros OK I H. pose proof (fun a => OK k e a I) as B. unfold efields in B. unfold decode.
  destruct (e_type e); try reflexivity; cbn [In] in B.
  - destruct (B _ (or_introl eq_refl)) as (B1 & B2 & _). cbn [fst snd] in *. do 2 f_equal. apply rd32_ext. intros; apply H. lia.
  - destruct (B _ (or_introl eq_refl)) as (B1 & B2 & _). cbn [fst snd] in *. do 2 f_equal. apply rd16_ext; apply H; lia.
  - destruct (B _ (or_introl eq_refl)) as (B1 & B2 & _). destruct (B _ (or_intror (or_introl eq_refl))) as (B3 & B4 & _).
    cbn [fst snd] in *. do 3 f_equal; [f_equal; apply rd16_ext; apply H; lia|f_equal; apply rd32_ext; intros; apply H; lia].
Qed.
Lemma decode_shift m start base e d : decode (fun x => m (x + d)) start base e = decode m start (base + d) e.
Proof.
  unfold decode, rd16, rd32.
  replace (base + d + (e_loc e - start - 1)) with (base + (e_loc e - start - 1) + d) by lia.
  replace (base + d + (e_scal e - start - 1)) with (base + (e_scal e - start - 1) + d) by lia.
  rewrite !(Z.add_shuffle0 _ d). reflexivity.
Qed.
Lemma getPrm_at p i m e : wf_param p -> lookup m (translate (p_rule p)) = Some e -> e_type e <> MCopy -> 0 <= i < p_sz p ->
  getPrm i m p = Some (p_at p (e_type e) (slot (p_rule p) i e)).
Proof.
  intros W L T Hi. unfold getPrm, getEntry. rewrite L. pose proof (get_slot_some p _ _ (slot_bounds p i m e W L T Hi)) as G.
  revert G. destruct (e_type e); try contradiction; auto.
Qed.

(** insert then extract: what every entry becomes *)
Lemma insert_extract sz p buf stride skip buf' q skip2 :
  wf_param p -> wf_param q -> p_rule q = p_rule p -> full_rule (p_rule p) -> fields_ok (p_rule p) ->
  0 <= stride -> 0 <= sz -> 0 <= skip -> skip + sz <= p_sz p -> 0 <= skip2 -> skip2 + sz <= p_sz q ->
  insertParam sz p buf stride skip = Some buf' ->
  exists q', extractParam sz buf' 0 q stride skip2 = Some q' /\ wf_param q' /\ p_rule q' = p_rule q /\ p_sz q' = p_sz q /\
  forall i m e, 0 <= i < sz -> lookup m (translate (p_rule p)) = Some e ->
  match e_type e with
  | MLong => getPrm (i + skip2) m q' = Some (VI (s32 (int_of (p_at p MLong (slot (p_rule p) (i + skip) e)))))
  | MShort => getPrm (i + skip2) m q' = Some (VI (s16 (int_of (p_at p MShort (slot (p_rule p) (i + skip) e)))))
  | MFloat => exists cs n, all_some (cands p (i + skip) (e_scal e) (map snd (translate (p_rule p)))) = Some cs /\
      dlround (ddiv (dbl_of (p_at p MFloat (slot (p_rule p) (i + skip) e))) (parse_scalar (fold_left combine cs 1))) = Some n /\
      rd16 buf' ((240 + stride) * i + (e_scal e - 1)) = s16 (fold_left combine cs 1) /\
      getPrm (i + skip2) m q' = Some (VF (dmul (parse_scalar (s16 (fold_left combine cs 1))) (d_of_Z (s32 n))))
  | _ => True
  end.
Proof.
  intros W Wq R F OK Hs Hz Hk Hle Hk2 Hle2 H.
  destruct (insert_bytes _ _ _ _ _ _ F OK Hs Hz H) as (IB & _).
  destruct (extract_spec sz buf' 0 q stride skip2 Wq) as (q' & E & W' & R' & S' & L' & A & _ & _); [congruence|exact Hz|exact Hk2|exact Hle2|].
  exists q'. split; [exact E|]. split; [exact W'|]. split; [exact R'|]. split; [exact S'|].
  intros i m e Hi L. destruct (IB i Hi) as (cw & ws & _ & TW & B). set (base := (240 + stride) * i) in *.
  set (m0 := apply_writes cw buf) in *.
  assert (I := lookup_in _ _ _ L).
  assert (DE : decode buf' 0 base e = decode (apply_writes ws m0) 0 base e).
  { apply (decode_ext (p_rule p) _ _ _ _ m OK I). exact B. }
  assert (G : forall v, decode (apply_writes ws m0) 0 base e = Some v -> getPrm (i + skip2) m q' = Some v).
  { intros v Hv. destruct (decode_copyfree _ _ _ _ _ Hv) as (T & _). rewrite (getPrm_at q' _ m e W') by (try rewrite R', R; try rewrite S'; assumption || lia).
    f_equal. rewrite R'. apply (A i m e v Hi); [rewrite R; exact I|]. rewrite Z.add_0_l. fold base. rewrite DE. exact Hv. }
  assert (Ht : 0 <= i + skip < p_sz p) by lia.
  destruct (read_int p (i + skip) 0 base ws m0 m e W OK TW Ht L) as (RL & RS).
  destruct (e_type e) eqn:T; try exact Logic.I.
  - apply G. unfold decode. rewrite T, (RL eq_refl). reflexivity.
  - apply G. unfold decode. rewrite T, (RS eq_refl). reflexivity.
  - destruct (read_float p (i + skip) 0 base ws m0 m e W OK TW Ht L T) as (cs & n & C1 & C2 & C3 & C4).
    exists cs, n. split; [exact C1|]. split; [exact C2|]. split; [|apply G; unfold decode; rewrite T, C3, C4; reflexivity].
    rewrite <- C3. destruct (OK m e (e_scal e, 2) I) as (B1 & B2 & _); [unfold efields; rewrite T; right; left; reflexivity|]. cbn [fst snd] in *.
    fold base. replace (e_scal e - 0 - 1) with (e_scal e - 1) by lia. apply rd16_ext; apply B; lia.
Qed.

(** ---- integer-only rules always insert ---- *)
Lemma copy_write_some p tr base : wf_param p -> 0 <= tr < p_sz p -> exists cw, copy_write p tr base = Some cw.
Proof.
  intros (_ & _ & _ & LC) Ht. unfold copy_write. destruct (Z.eqb_spec (counts (p_rule p) MCopy) 0) as [E|E]; [eauto|].
  replace ((0 <=? tr * 240) && ((tr + 1) * 240 <=? p_len p MCopy)) with true; [eauto|]. rewrite LC.
  assert ((tr + 1) * 240 <= p_sz p * 240) by (apply Z.mul_le_mono_nonneg_r; lia). lia.
Qed.
Definition no_float (r : rule) : Prop := forall m e, In (m, e) (translate r) -> e_type e <> MFloat.
Lemma insert_some_int sz p buf stride skip : wf_param p -> no_float (p_rule p) -> 0 <= skip -> skip + sz <= p_sz p ->
  exists buf', insertParam sz p buf stride skip = Some buf'.
Proof.
  intros W NF Hk Hle. pose proof W as ((ND & _) & _). unfold insertParam.
  destruct (omap_some (fun i => copy_write p (i + skip) (i * (stride + 240))) (zrange (Z.to_nat sz))) as (cws & ->).
  { intros i I. apply in_zrange in I. apply copy_write_some; [exact W|lia]. }
  cbn [obind]. set (st := r_start (p_rule p)). set (ex := fst _).
  destruct (omap_some (fun i => trace_writes p (i + skip) st ((ex + stride) * i)) (zrange (Z.to_nat sz))) as (tws & ->); [|cbn [obind]; eauto].
  intros i I. apply in_zrange in I. unfold trace_writes.
  destruct (omap_some (int_write p (i + skip) st ((ex + stride) * i)) (map snd (translate (p_rule p)))) as (iw & ->).
  { intros e J. apply in_map_iff in J. destruct J as ((m & e') & <- & J). cbn [snd].
    pose proof (val_of_some p (i + skip) m e' W (in_lookup _ _ _ ND J)) as V. unfold int_write.
    destruct (e_type e') eqn:T; try (eexists; reflexivity); rewrite V by (congruence || lia); eexists; reflexivity. }
  cbn [obind].
  assert (FS : forall l sc, (forall e, In e l -> e_type e <> MFloat) -> fold_left (scal_step p (i + skip)) l (Some sc) = Some sc).
  { induction l as [|e l IH]; intros sc Hl; [reflexivity|]. cbn [fold_left]. unfold scal_step at 2.
    assert (e_type e <> MFloat) by (apply Hl; left; reflexivity). destruct (e_type e); try contradiction; apply IH; intros; apply Hl; right; assumption. }
  assert (NF' : forall e, In e (map snd (translate (p_rule p))) -> e_type e <> MFloat).
  { intros e J. apply in_map_iff in J. destruct J as ((m & e') & <- & J). apply (NF m). exact J. }
  rewrite FS by exact NF'. cbn [obind].
  destruct (omap_some (float_write p (i + skip) st ((ex + stride) * i) []) (map snd (translate (p_rule p)))) as (fw & ->); [|cbn [obind]; eauto].
  intros e J. unfold float_write. pose proof (NF' e J). destruct (e_type e); try contradiction; eauto.
Qed.

(** ---- extraction depends on the headers only ---- *)
Definition peq (p p' : param) : Prop :=
  p_rule p = p_rule p' /\ p_sz p = p_sz p' /\ p_len p = p_len p' /\ forall t x, p_at p t x = p_at p' t x.
Definition opeq (a b : option param) : Prop :=
  match a, b with Some p, Some p' => peq p p' | None, None => True | _, _ => False end.
Lemma peq_refl p : peq p p. Proof. repeat split. Qed.
Lemma extract_local sz m m' b0 p stride skip : fields_ok (p_rule p) -> full_rule (p_rule p) -> 0 <= sz ->
  (forall i x, 0 <= i < sz -> 0 <= x < 240 -> m (b0 + (240 + stride) * i + x) = m' (b0 + (240 + stride) * i + x)) ->
  opeq (extractParam sz m b0 p stride skip) (extractParam sz m' b0 p stride skip).
Proof.
  intros OK F Hz H. unfold extractParam. destruct (sz =? 0); [apply peq_refl|].
  set (is := zrange (Z.to_nat sz)). assert (Iis : forall i, In i is -> 0 <= i < sz) by (intros i; unfold is; rewrite in_zrange; lia). clearbody is.
  set (c1 := if counts (p_rule p) MCopy =? 0 then Some p else _). set (c2 := if counts (p_rule p) MCopy =? 0 then Some p else _).
  assert (C : opeq c1 c2 /\ match c1 with Some q => p_rule q = p_rule p | None => True end).
  { unfold c1, c2. destruct (_ =? 0); [split; [apply peq_refl|reflexivity]|].
    set (f := fun m op i => obind op (copy_in m (b0 + i * (stride + 240)) (i + skip))).
    change (opeq (fold_left (f m) is (Some p)) (fold_left (f m') is (Some p)) /\ match fold_left (f m) is (Some p) with Some q => p_rule q = p_rule p | None => True end).
    assert (G : forall l a b, incl l is -> opeq a b -> match a with Some q => p_rule q = p_rule p | None => True end ->
      opeq (fold_left (f m) l a) (fold_left (f m') l b) /\ match fold_left (f m) l a with Some q => p_rule q = p_rule p | None => True end).
    { induction l as [|i l IH]; intros a b Hl E Ra; [split; assumption|]. cbn [fold_left]. apply IH.
      - intros y Y. apply Hl. right; exact Y.
      - destruct a as [a|], b as [b|]; try contradiction; [|exact Logic.I]. unfold f. cbn [obind]. destruct E as (E1 & E2 & E3 & E4).
        unfold copy_in. rewrite E3. destruct (_ && _) eqn:Bd; [|exact Logic.I]. cbn [opeq]. unfold peq. cbn [p_rule p_sz p_len p_at].
        split; [exact E1|]. split; [exact E2|]. split; [congruence|]. intros t x.
        destruct (mdtype_eqb t MCopy && _) eqn:B2; [|apply E4]. f_equal.
        specialize (H i (x - (i + skip) * 240) (Iis _ (Hl i (or_introl eq_refl)))).
        replace (b0 + (240 + stride) * i + (x - (i + skip) * 240)) with (b0 + i * (stride + 240) + (x - (i + skip) * 240)) in H by lia.
        apply H. apply andb_true_iff in B2. lia.
      - destruct a as [a|]; [|exact Logic.I]. unfold f. cbn [obind]. unfold copy_in. destruct (_ && _); [|exact Logic.I]. exact Ra. }
    apply G; [apply incl_refl|apply peq_refl|reflexivity]. }
  clearbody c1 c2. destruct C as (C & R). destruct c1 as [q|], c2 as [q'|]; try contradiction; [|exact Logic.I].
  cbn [obind]. pose proof C as (R' & _). rewrite <- R', R, !full_extent by exact F.
  destruct F as (_ & F2). rewrite F2.
  assert (GE : forall base tr es a b, (forall e, In e es -> decode m 0 base e = decode m' 0 base e) -> opeq a b ->
    opeq (fold_left (extract_entry m 0 base tr) es a) (fold_left (extract_entry m' 0 base tr) es b)).
  { intros base tr. induction es as [|e es IH]; intros a b He E; [exact E|]. cbn [fold_left]. apply IH; [intros; apply He; right; assumption|].
    unfold extract_entry. destruct a as [a|], b as [b|]; try contradiction; [|exact Logic.I]. cbn [obind]. rewrite <- (He e) by (left; reflexivity).
    destruct (decode m 0 base e) as [v|]; [|exact E]. destruct E as (E1 & E2 & E3 & E4). unfold set_slot. rewrite E1, E3.
    destruct (_ && _); [|exact Logic.I]. cbn [opeq]. unfold peq. cbn [p_rule p_sz p_len p_at]. split; [reflexivity|]. split; [exact E2|]. split; [reflexivity|].
    intros t x. unfold upd. destruct (_ && _); [reflexivity|apply E4]. }
  assert (GT : forall l a b, incl l is -> opeq a b ->
    opeq (fold_left (fun op i => fold_left (extract_entry m 0 (b0 + (240 + stride) * i) (i + skip)) (map snd (translate (p_rule p))) op) l a)
         (fold_left (fun op i => fold_left (extract_entry m' 0 (b0 + (240 + stride) * i) (i + skip)) (map snd (translate (p_rule p))) op) l b)).
  { induction l as [|i l IH]; intros a b Hl E; [exact E|]. cbn [fold_left]. apply IH; [intros y Y; apply Hl; right; exact Y|].
    apply GE; [|exact E]. intros e J. apply in_map_iff in J. destruct J as ((k & e') & <- & J). cbn [snd].
    apply (decode_ext (p_rule p) _ _ _ _ k OK J). intros x Hx.
    specialize (H i (x - (b0 + (240 + stride) * i)) (Iis _ (Hl i (or_introl eq_refl))) ltac:(lia)).
    replace (b0 + (240 + stride) * i + (x - (b0 + (240 + stride) * i))) with x in H by lia. exact H. }
  apply GT; [apply incl_refl|]. destruct C as (_ & C2 & C3 & C4). cbn [opeq]. unfold peq. cbn [p_rule p_sz p_len p_at]. auto.
Qed.

(** ---- COPY ---- *)
Lemma nth_map_zrange {A} (f : Z -> A) n k d : 0 <= k < Z.of_nat n -> nth (Z.to_nat k) (map f (zrange n)) d = f k.
Proof.
  intros H. rewrite (nth_indep _ d (f 0)) by (unfold zrange; rewrite !map_length, seq_length; lia). rewrite map_nth. f_equal.
  unfold zrange. change 0 with (Z.of_nat 0) at 1. rewrite map_nth, seq_nth by lia. lia.
Qed.
Lemma copy_write_byte p tr base cw buf x : counts (p_rule p) MCopy <> 0 -> copy_write p tr base = Some cw ->
  0 <= x < 240 -> apply_writes cw buf (base + x) = int_of (p_at p MCopy (tr * 240 + x)).
Proof.
  intros N. unfold copy_write. destruct (Z.eqb_spec (counts (p_rule p) MCopy) 0); [contradiction|].
  destruct (_ && _); [|discriminate].
  pose proof (nth_map_zrange (fun k => int_of (p_at p MCopy (tr * 240 + k))) 240 x 0) as B.
  assert (L : length (zrange 240) = 240%nat) by reflexivity. revert L B. generalize (zrange 240). intros l L B H Hx. injection H as <-.
  unfold apply_writes, put. cbn [fold_left fst snd]. rewrite map_length, L.
  replace (_ && _) with true by lia. replace (base + x - base) with x by lia. apply B. lia.
Qed.
Lemma uncovered_byte p tr base ws m x : trace_writes p tr 0 base = Some ws ->
  (forall k e a, In (k, e) (translate (p_rule p)) -> In a (efields e) -> ~ (fst a <= x + 1 < fst a + snd a)) ->
  apply_writes ws m (base + x) = m (base + x).
Proof.
  intros H U. apply writes_out. intros w I C. destruct (trace_write_field _ _ _ _ _ H w I) as (k & e & a & J & A & (W1 & W2)).
  apply (U k e a J A). unfold covers in C. lia.
Qed.

(** ---- all operations keep the shape of a parameter set ---- *)
Definition shape (p p' : param) : Prop :=
  counts (p_rule p') = counts (p_rule p) /\ translate (p_rule p') = translate (p_rule p) /\ p_sz p' = p_sz p /\ p_len p' = p_len p.
Lemma shape_refl p : shape p p. Proof. repeat split. Qed.
Lemma shape_trans a b c : shape a b -> shape b c -> shape a c.
Proof. intros (A1 & A2 & A3 & A4) (B1 & B2 & B3 & B4). repeat split; congruence. Qed.
Lemma shape_wf p p' : shape p p' -> wf_param p -> wf_param p'.
Proof.
  intros (A1 & A2 & A3 & A4) (G & B & C & E). unfold wf_param. rewrite A3, A4, A1. split; [|auto].
  eapply good_same_map; [..|exact G]; assumption.
Qed.
Lemma set_slot_shape p t i v p' : set_slot p t i v = Some p' -> shape p p'.
Proof. unfold set_slot. destruct (_ && _); [|discriminate]. intros H; injection H as <-. repeat split. Qed.
Lemma setPrm_shape i m v p p' : setPrm i m v p = Some p' -> shape p p'.
Proof.
  unfold setPrm. destruct (getEntry m (p_rule p)) as [e|]; [|discriminate].
  destruct (e_type e); try (intros H; injection H as <-; apply shape_refl);
    (destruct (convert _ v); [|discriminate]); cbn [obind]; apply set_slot_shape.
Qed.
Lemma setPrm_copy i m v p p' : setPrm i m v p = Some p' -> forall x, p_at p' MCopy x = p_at p MCopy x.
Proof.
  unfold setPrm. destruct (getEntry m (p_rule p)) as [e|]; [|discriminate].
  destruct (e_type e); try (intros H; injection H as <-; reflexivity);
    (destruct (convert _ v); [|discriminate]); cbn [obind]; unfold set_slot; (destruct (_ && _); [|discriminate]);
    intros H; injection H as <-; reflexivity.
Qed.
Lemma fold_shape {A} (f : option param -> A -> option param) (N : forall a, f None a = None)
  (S : forall p a p', f (Some p) a = Some p' -> shape p p') : forall l p p', fold_left f l (Some p) = Some p' -> shape p p'.
Proof.
  assert (FN : forall l, fold_left f l None = None) by (induction l as [|a l IH]; [reflexivity|cbn; rewrite N; exact IH]).
  induction l as [|a l IH]; intros p p' H; [injection H as <-; apply shape_refl|]. cbn in H.
  destruct (f (Some p) a) as [p1|] eqn:E; [|rewrite FN in H; discriminate]. eapply shape_trans; [apply (S _ _ _ E)|apply IH, H].
Qed.
Lemma extract_entries_none m st b tr es : fold_left (extract_entry m st b tr) es None = None.
Proof. induction es; [reflexivity|exact IHes]. Qed.
Lemma extract_entry_shape m st b tr p e p' : extract_entry m st b tr (Some p) e = Some p' -> shape p p'.
Proof.
  unfold extract_entry. cbn [obind]. destruct (decode m st b e); [apply set_slot_shape|]. intros H; injection H as <-. apply shape_refl.
Qed.
Lemma extract_shape sz m b0 p stride skip p' : extractParam sz m b0 p stride skip = Some p' -> shape p p'.
Proof.
  unfold extractParam. destruct (sz =? 0); [intros H; injection H as <-; apply shape_refl|].
  set (c := if _ =? 0 then Some p else _). destruct c as [p1|] eqn:E; [|discriminate]. cbn [obind].
  assert (S1 : shape p p1).
  { revert E. unfold c. destruct (_ =? 0); [intros H; injection H as <-; apply shape_refl|].
    apply fold_shape; [reflexivity|]. intros q i q'. cbn [obind]. unfold copy_in. destruct (_ && _); [|discriminate].
    intros H; injection H as <-. repeat split. }
  destruct (extent (p_rule p1)) as [ext r] eqn:X.
  assert (SX : counts r = counts (p_rule p1) /\ translate r = translate (p_rule p1)).
  { unfold extent in X. destruct (r_full (p_rule p1)); [injection X as _ <-; auto|]. destruct (r_bad (p_rule p1)); injection X as _ <-; auto. }
  intros H. eapply shape_trans; [exact S1|]. apply fold_shape in H.
  - eapply shape_trans; [|exact H]. destruct SX as (X1 & X2). repeat split; [exact X1|exact X2].
  - intros i. apply extract_entries_none.
  - intros q i q'. apply fold_shape; [reflexivity|]. apply extract_entry_shape.
Qed.
Lemma copy_kind_shape src j k t p p' : copy_kind src j k (Some p) t = Some p' -> shape p p'.
Proof.
  unfold copy_kind. apply fold_shape; [reflexivity|]. intros q i q'. cbn [obind]. destruct (get_slot _ _ _); [|discriminate].
  cbn [obind]. apply set_slot_shape.
Qed.
Lemma copy_kind_none src j k t : copy_kind src j k None t = None.
Proof. unfold copy_kind. generalize (zrange (Z.to_nat (counts (p_rule src) t))) as l. induction l; [reflexivity|exact IHl]. Qed.
Lemma copy_entry_shape src j k p x p' : copy_entry src j k (Some p) x = Some p' -> shape p p'.
Proof.
  unfold copy_entry. cbn [obind]. destruct (lookup _ _) as [de|]; [|intros H; injection H as <-; apply shape_refl].
  destruct (mdtype_eqb _ _); [|intros H; injection H as <-; apply shape_refl].
  destruct (e_type (snd x)); try (intros H; injection H as <-; apply shape_refl);
    (destruct (get_slot _ _ _); [|discriminate]); cbn [obind]; apply set_slot_shape.
Qed.
Lemma cpyPrm_shape same j src k dst dst' : cpyPrm same j src k dst = Some dst' -> shape dst dst'.
Proof.
  unfold cpyPrm. set (c := if _ =? 0 then Some dst else _). destruct c as [d1|] eqn:E; [|discriminate]. cbn [obind].
  assert (S1 : shape dst d1).
  { revert E. unfold c. destruct (_ =? 0); [intros H; injection H as <-; apply shape_refl|]. apply extract_shape. }
  intros H. eapply shape_trans; [exact S1|]. revert H. destruct same; apply fold_shape; try reflexivity.
  - intros t. apply copy_kind_none.
  - intros q t q'. apply copy_kind_shape.
  - intros q x q'. apply copy_entry_shape.
Qed.

(** ---- copying a trace's metadata ---- *)
Lemma copy_kind_spec src j k t dst : wf_param src -> t <> MCopy -> 0 <= j < p_sz src -> 0 <= k < p_sz dst ->
  p_len dst t = p_sz dst * counts (p_rule src) t ->
  exists dst', copy_kind src j k (Some dst) t = Some dst' /\ p_rule dst' = p_rule dst /\ p_sz dst' = p_sz dst /\ p_len dst' = p_len dst /\
  (forall n, 0 <= n < counts (p_rule src) t -> p_at dst' t (counts (p_rule src) t * k + n) = p_at src t (counts (p_rule src) t * j + n)) /\
  (forall t' x, (t' = t -> ~ (counts (p_rule src) t * k <= x < counts (p_rule src) t * k + counts (p_rule src) t)) -> p_at dst' t' x = p_at dst t' x).
Proof.
  intros W T Hj Hk LD. pose proof W as (_ & _ & LS & _). specialize (LS t T). set (c := counts (p_rule src) t) in *.
  unfold copy_kind. fold c. set (f := fun op i => _).
  assert (G : forall l d, (forall n, In n l -> 0 <= n < c) -> p_sz d = p_sz dst -> p_len d = p_len dst ->
    exists dst', fold_left f l (Some d) = Some dst' /\ p_rule dst' = p_rule d /\ p_sz dst' = p_sz d /\ p_len dst' = p_len d /\
    (forall n, In n l -> p_at dst' t (c * k + n) = p_at src t (c * j + n)) /\
    (forall t' x, (t' = t -> forall n, In n l -> x <> c * k + n) -> p_at dst' t' x = p_at d t' x)).
  { induction l as [|n l IH]; intros d Hl Sd Ld.
    - exists d. repeat (split; [reflexivity|]). split; [intros n []|auto].
    - cbn [fold_left]. pose proof (Hl n (or_introl eq_refl)) as Hn.
      assert (X1 : 0 <= j * c + n < p_len src t).
      { rewrite LS. assert ((j + 1) * c <= p_sz src * c) by (apply Z.mul_le_mono_nonneg_r; lia). assert (0 <= j * c) by (apply Z.mul_nonneg_nonneg; lia). lia. }
      assert (X2 : 0 <= k * c + n < p_len d t).
      { rewrite Ld, LD. assert ((k + 1) * c <= p_sz dst * c) by (apply Z.mul_le_mono_nonneg_r; lia). assert (0 <= k * c) by (apply Z.mul_nonneg_nonneg; lia). lia. }
      unfold f at 2. cbn [obind]. fold c. rewrite get_slot_some by exact X1. cbn [obind]. rewrite set_slot_some by exact X2.
      set (d1 := mkParam _ _ _ _). destruct (IH d1) as (dst' & F & R & S & L & A & U); [intros; apply Hl; right; assumption|exact Sd|exact Ld|].
      exists dst'. split; [exact F|]. split; [exact R|]. split; [exact S|]. split; [exact L|].
      assert (AT : forall x, p_at d1 t x = if x =? k * c + n then p_at src t (j * c + n) else p_at d t x) by (intros x; cbn [d1 p_at]; unfold upd; rewrite mdtype_eqb_refl; reflexivity).
      split.
      + intros n' I. destruct (in_dec Z.eq_dec n' l) as [J|J]; [apply A; exact J|]. destruct I as [<-|I]; [|contradiction].
        rewrite U; [rewrite AT; replace (c * k + n =? k * c + n) with true by lia; f_equal; lia|].
        intros _ n2 J2 E. apply J. replace n with n2 by lia. exact J2.
      + intros t' x Hx. rewrite U; [|intros E n2 J2; apply Hx; [exact E|right; exact J2]].
        destruct (mdtype_eqb_spec t' t) as [->|N].
        * rewrite AT. destruct (Z.eqb_spec x (k * c + n)) as [E|]; [|reflexivity]. exfalso. apply (Hx eq_refl n); [left; reflexivity|lia].
        * cbn [d1 p_at]. unfold upd. destruct (mdtype_eqb_spec t' t); [contradiction|reflexivity]. }
  destruct (G (zrange (Z.to_nat c)) dst) as (dst' & F & R & S & L & A & U); [intros n; rewrite in_zrange; lia|reflexivity|reflexivity|].
  exists dst'. split; [exact F|]. split; [exact R|]. split; [exact S|]. split; [exact L|]. split.
  - intros n Hn. apply A. apply in_zrange. lia.
  - intros t' x Hx. apply U. intros E n I. apply in_zrange in I. specialize (Hx E). lia.
Qed.
Definition kinds4 : list mdtype := [MFloat; MLong; MShort; MIndex].
Lemma copy_kinds src j k : forall ts dst, wf_param src -> (forall t, In t ts -> t <> MCopy) -> NoDup ts -> 0 <= j < p_sz src -> 0 <= k < p_sz dst ->
  (forall t, In t ts -> p_len dst t = p_sz dst * counts (p_rule src) t) ->
  exists dst', fold_left (copy_kind src j k) ts (Some dst) = Some dst' /\ p_rule dst' = p_rule dst /\ p_sz dst' = p_sz dst /\ p_len dst' = p_len dst /\
  (forall t n, In t ts -> 0 <= n < counts (p_rule src) t -> p_at dst' t (counts (p_rule src) t * k + n) = p_at src t (counts (p_rule src) t * j + n)) /\
  (forall t x, (In t ts -> ~ (counts (p_rule src) t * k <= x < counts (p_rule src) t * k + counts (p_rule src) t)) -> p_at dst' t x = p_at dst t x).
Proof.
  induction ts as [|t ts IH]; intros dst W T ND Hj Hk L.
  - exists dst. repeat (split; [reflexivity|]). split; [intros t n []|auto].
  - cbn [fold_left]. inversion ND as [|? ? NI ND']; subst.
    destruct (copy_kind_spec src j k t dst W (T t (or_introl eq_refl)) Hj Hk (L t (or_introl eq_refl))) as (d1 & F1 & R1 & S1 & L1 & A1 & U1). rewrite F1.
    destruct (IH d1 W) as (dst' & F & R & S & L2 & A & U); [intros; apply T; right; assumption|exact ND'|exact Hj|lia|intros; rewrite L1, S1; apply L; right; assumption|].
    exists dst'. split; [exact F|]. split; [congruence|]. split; [congruence|]. split; [congruence|]. split.
    + intros t' n [<-|I] Hn; [|apply A; assumption]. rewrite U by (intros C; contradiction). apply A1. exact Hn.
    + intros t' x Hx. rewrite U by (intros I; apply Hx; right; exact I). apply U1. intros ->. apply Hx. left; reflexivity.
Qed.
Lemma copy_entries src j k : forall l dst, wf_param src -> wf_param dst -> incl l (translate (p_rule src)) -> NoDup (map fst l) ->
  0 <= j < p_sz src -> 0 <= k < p_sz dst ->
  exists dst', fold_left (copy_entry src j k) l (Some dst) = Some dst' /\ p_rule dst' = p_rule dst /\ p_sz dst' = p_sz dst /\ p_len dst' = p_len dst /\
  (forall m es ed, In (m, es) l -> lookup m (translate (p_rule dst)) = Some ed -> e_type ed = e_type es -> e_type es <> MCopy ->
     p_at dst' (e_type ed) (slot (p_rule dst) k ed) = p_at src (e_type es) (slot (p_rule src) j es)) /\
  (forall t x, (forall m es ed, In (m, es) l -> lookup m (translate (p_rule dst)) = Some ed -> e_type ed = e_type es -> e_type es <> MCopy ->
     (t, x) <> (e_type ed, slot (p_rule dst) k ed)) -> p_at dst' t x = p_at dst t x).
Proof.
  induction l as [|[m es] l IH]; intros dst W Wd IN ND Hj Hk.
  - exists dst. repeat (split; [reflexivity|]). split; [intros m es ed []|auto].
  - cbn [fold_left]. cbn [map fst] in ND. inversion ND as [|? ? NI ND']; subst.
    assert (IN' : incl l (translate (p_rule src))) by (intros y Y; apply IN; right; exact Y).
    assert (SKIP : copy_entry src j k (Some dst) (m, es) = Some dst ->
      (forall ed, lookup m (translate (p_rule dst)) = Some ed -> e_type ed = e_type es -> e_type es = MCopy) -> 
      exists dst', fold_left (copy_entry src j k) l (copy_entry src j k (Some dst) (m, es)) = Some dst' /\ p_rule dst' = p_rule dst /\ p_sz dst' = p_sz dst /\ p_len dst' = p_len dst /\
  (forall m0 es0 ed, In (m0, es0) ((m, es) :: l) -> lookup m0 (translate (p_rule dst)) = Some ed -> e_type ed = e_type es0 -> e_type es0 <> MCopy ->
     p_at dst' (e_type ed) (slot (p_rule dst) k ed) = p_at src (e_type es0) (slot (p_rule src) j es0)) /\
  (forall t x, (forall m0 es0 ed, In (m0, es0) ((m, es) :: l) -> lookup m0 (translate (p_rule dst)) = Some ed -> e_type ed = e_type es0 -> e_type es0 <> MCopy ->
     (t, x) <> (e_type ed, slot (p_rule dst) k ed)) -> p_at dst' t x = p_at dst t x)).
    { intros -> NO. destruct (IH dst W Wd IN' ND' Hj Hk) as (dst' & F & R & S & L & A & U).
      exists dst'. split; [exact F|]. split; [exact R|]. split; [exact S|]. split; [exact L|]. split.
      - intros m0 es0 ed [I|I] Le T C; [|apply (A m0); assumption]. injection I as <- <-. exfalso. apply C, (NO ed Le T).
      - intros t x Hx. apply U. intros m0 es0 ed I. apply (Hx m0 es0). right; exact I. }
    destruct (lookup m (translate (p_rule dst))) as [ed|] eqn:Le.
    2:{ apply SKIP; [unfold copy_entry; cbn [obind fst]; rewrite Le; reflexivity|]. intros ed X; discriminate. }
    destruct (mdtype_eqb_spec (e_type ed) (e_type es)) as [T|T].
    2:{ apply SKIP; [unfold copy_entry; cbn [obind fst snd]; rewrite Le; destruct (mdtype_eqb_spec (e_type ed) (e_type es)); [contradiction|reflexivity]|].
        intros e X Y. injection X as <-. contradiction. }
    destruct (mdtype_eqb_spec (e_type es) MCopy) as [C|C].
    { apply SKIP; [unfold copy_entry; cbn [obind fst snd]; rewrite Le, T, mdtype_eqb_refl, C; reflexivity|]. intros; exact C. }
    clear SKIP. pose proof W as ((NDs & _) & _). pose proof Wd as (Gd & _).
    assert (Ls : lookup m (translate (p_rule src)) = Some es) by (apply in_lookup; [exact NDs|apply IN; left; reflexivity]).
    assert (B1 := slot_bounds src j m es W Ls C Hj). assert (B2 := slot_bounds dst k m ed Wd Le ltac:(congruence) Hk).
    assert (E : copy_entry src j k (Some dst) (m, es) = Some (mkParam (p_rule dst) (p_sz dst) (p_len dst)
        (upd (p_at dst) (e_type ed) (slot (p_rule dst) k ed) (p_at src (e_type es) (slot (p_rule src) j es))))).
    { pose proof (get_slot_some _ _ _ B1) as G1. pose proof (fun v => set_slot_some dst _ _ v B2) as G2.
      unfold copy_entry. cbn [obind fst snd]. rewrite Le. rewrite T in *. rewrite mdtype_eqb_refl. revert G1 G2 C.
      destruct (e_type es); intros G1 G2 C; try contradiction; rewrite G1; cbn [obind]; apply G2. }
    rewrite E. set (d1 := mkParam _ _ _ _).
    destruct (IH d1 W Wd IN' ND' Hj Hk) as (dst' & F & R & S & L & A & U). change (p_rule d1) with (p_rule dst) in *.
    exists dst'. split; [exact F|]. split; [exact R|]. split; [exact S|]. split; [exact L|]. split.
    + intros m0 es0 ed0 [I|I] L0 T0 C0; [|apply (A m0); assumption]. injection I as <- <-. rewrite Le in L0. injection L0 as <-.
      rewrite U; [cbn [d1 p_at]; unfold upd; rewrite mdtype_eqb_refl, Z.eqb_refl; reflexivity|].
      intros m1 es1 ed1 I1 L1 T1 C1 EQ. injection EQ as Te Se. destruct (slot_inj _ _ _ _ _ _ _ Gd Le L1 Te Se) as (_ & ->).
      apply NI. apply (in_map fst) in I1. exact I1.
    + intros t x Hx. rewrite U by (intros m0 es0 ed0 I; apply (Hx m0 es0); right; exact I). cbn [d1 p_at]. unfold upd.
      destruct (mdtype_eqb_spec t (e_type ed)) as [->|]; [|reflexivity]. destruct (Z.eqb_spec x (slot (p_rule dst) k ed)) as [->|]; [|reflexivity].
      exfalso. apply (Hx m es ed); [left; reflexivity|exact Le|exact T|exact C|reflexivity].
Qed.

(** ---- the order of the map does not matter ---- *)
Lemma all_some_in {A} : forall (l : list (option A)) r, all_some l = Some r -> forall x, In x l -> exists a, x = Some a.
Proof.
  induction l as [|[a|] l IH]; cbn; intros r H x I; [destruct I| |discriminate]. destruct (all_some l) as [r'|]; [|discriminate].
  destruct I as [<-|I]; [eauto|]. apply (IH r' eq_refl x I).
Qed.
Lemma all_some_map {A} : forall (l : list (option A)) r, all_some l = Some r -> l = map Some r.
Proof.
  induction l as [|[a|] l IH]; cbn; intros r H; [injection H as <-; reflexivity| |discriminate].
  destruct (all_some l) as [r'|]; [|discriminate]. injection H as <-. cbn. f_equal. apply IH. reflexivity.
Qed.
Lemma all_some_perm {A} (l l' : list (option A)) r r' : Permutation l l' -> all_some l = Some r -> all_some l' = Some r' -> Permutation r r'.
Proof.
  intros P H H'. apply all_some_map in H, H'. subst. apply Permutation_map_inv in P. destruct P as (l & E & P).
  assert (M : r = l); [|subst; apply Permutation_sym; exact P]. clear - E. revert l E. induction r as [|a r IH]; intros [|b l] E; try discriminate; [reflexivity|].
  cbn in E. injection E as -> E. f_equal. apply IH. exact E.
Qed.
Lemma filter_perm {A} (f : A -> bool) l l' : Permutation l l' -> Permutation (filter f l) (filter f l').
Proof.
  induction 1; cbn; [constructor|destruct (f x); [constructor|]; assumption| |eapply Permutation_trans; eassumption].
  destruct (f x), (f y); try constructor; apply Permutation_refl.
Qed.
Lemma scal_ok p tr : forall es sc, (forall e, In e es -> e_type e = MFloat -> exists s, obind (val_of p tr e) (fun v => find_scalar (dbl_of v)) = Some s) ->
  exists sc', fold_left (scal_step p tr) es (Some sc) = Some sc'.
Proof.
  induction es as [|e es IH]; intros sc H; [eexists; reflexivity|]. cbn [fold_left]. unfold scal_step at 2. cbn [obind].
  assert (H' : forall e, In e es -> e_type e = MFloat -> exists s, obind (val_of p tr e) (fun v => find_scalar (dbl_of v)) = Some s) by (intros; apply H; [right; assumption|assumption]).
  destruct (e_type e) eqn:T; try (apply IH; exact H'). destruct (H e (or_introl eq_refl) T) as (s & E).
  destruct (val_of p tr e) as [v|]; [|discriminate]. cbn [obind] in *. rewrite E. cbn [obind]. apply IH. exact H'.
Qed.
Definition same_values (p p' : param) : Prop :=
  p_len p' = p_len p /\ p_at p' = p_at p /\ counts (p_rule p') = counts (p_rule p) /\ Permutation (translate (p_rule p)) (translate (p_rule p')).
Lemma trace_writes_perm p p' tr start base ws : same_values p p' -> NoDup (map fst (translate (p_rule p))) -> fields_ok (p_rule p) ->
  trace_writes p tr start base = Some ws ->
  exists ws', trace_writes p' tr start base = Some ws' /\ forall w, In w ws <-> In w ws'.
Proof.
  intros (E1 & E2 & E3 & P) ND OK H. destruct (trace_writes_inv _ _ _ _ _ H) as (sc & S & C).
  assert (V : forall e, val_of p' tr e = val_of p tr e) by (intros e; unfold val_of, get_slot, slot; rewrite E1, E2, E3; reflexivity).
  assert (IW : forall e, int_write p' tr start base e = int_write p tr start base e) by (intros e; unfold int_write; rewrite V; reflexivity).
  set (es := map snd (translate (p_rule p))) in *. set (es' := map snd (translate (p_rule p'))).
  assert (Pe : Permutation es es') by (apply Permutation_map; exact P).
  destruct (scal_fold p tr es [] sc (NoDup_nil _) S) as (NDs & G).
  assert (CE : forall l loc, cands p' tr loc l = cands p tr loc l) by (intros; unfold cands; apply map_ext; intros; rewrite V; reflexivity).
  assert (CP : forall loc, Permutation (cands p tr loc es) (cands p tr loc es')) by (intros; unfold cands; apply Permutation_map, filter_perm, Pe).
  destruct (scal_ok p' tr es' []) as (sc' & S').
  { intros e I T. rewrite V. destruct (G (e_scal e)) as (cs & A & _). apply (all_some_in _ _ A).
    unfold cands. apply in_map_iff. exists e. split; [reflexivity|]. apply filter_In. split; [apply (Permutation_in _ (Permutation_sym Pe)), I|].
    rewrite T, Z.eqb_refl. reflexivity. }
  destruct (scal_fold p' tr es' [] sc' (NoDup_nil _) S') as (NDs' & G').
  assert (SE : forall loc, sc_get sc' loc = sc_get sc loc).
  { intros loc. destruct (G loc) as (cs & A & B). destruct (G' loc) as (cs' & A' & B'). rewrite CE in A'. cbn [sc_get] in B, B'.
    pose proof (all_some_perm _ _ _ _ (CP loc) A A') as PC. rewrite B, B'.
    destruct cs as [|a cs], cs' as [|a' cs']; try reflexivity.
    - apply Permutation_nil in PC. discriminate.
    - apply Permutation_sym, Permutation_nil in PC. discriminate.
    - f_equal. symmetry. apply combine_perm. exact PC. }
  assert (FW : forall e, float_write p' tr start base sc' e = float_write p tr start base sc e) by (intros e; unfold float_write; rewrite V, SE; reflexivity).
  assert (X : exists ws', trace_writes p' tr start base = Some ws').
  { unfold trace_writes in H |- *. fold es in H. fold es'. destruct (omap (int_write p tr start base) es) as [iw|] eqn:O1; [|discriminate]. cbn [obind] in H.
    rewrite S in H. cbn [obind] in H. destruct (omap (float_write p tr start base sc) es) as [fw|] eqn:O2; [|discriminate].
    destruct (omap_some (int_write p' tr start base) es') as (iw' & ->).
    { intros e I. rewrite IW. destruct (omap_total _ _ _ O1 e) as (y & Y & _); [apply (Permutation_in _ (Permutation_sym Pe)), I|eauto]. }
    cbn [obind]. rewrite S'. cbn [obind]. destruct (omap_some (float_write p' tr start base sc') es') as (fw' & ->); [|cbn [obind]; eauto].
    intros e I. rewrite FW. destruct (omap_total _ _ _ O2 e) as (y & Y & _); [apply (Permutation_in _ (Permutation_sym Pe)), I|eauto]. }
  destruct X as (ws' & X). exists ws'. split; [exact X|].
  destruct (trace_writes_inv _ _ _ _ _ X) as (sc2 & S2 & C2). fold es' in S2. rewrite S' in S2. injection S2 as <-.
  assert (IP : forall k e, In (k, e) (translate (p_rule p)) <-> In (k, e) (translate (p_rule p'))).
  { intros. split; apply Permutation_in; [exact P|apply Permutation_sym, P]. }
  intros w. rewrite C, C2. setoid_rewrite IP. setoid_rewrite IW. setoid_rewrite FW.
  assert (SI : (exists x, In x sc /\ w = scale_write start base x) <-> (exists x, In x sc' /\ w = scale_write start base x)).
  { split; intros ((loc & s) & I & ->); exists (loc, s); (split; [|reflexivity]); apply sc_get_in.
    - rewrite SE. apply in_sc_get; assumption.
    - rewrite <- SE. apply in_sc_get; assumption. }
  rewrite SI. reflexivity.
Qed.
Lemma apply_same ws ws' m x : (forall w, In w ws <-> In w ws') -> (forall w v, In w ws -> In v ws -> covers w x -> covers v x -> w = v) ->
  apply_writes ws m x = apply_writes ws' m x.
Proof.
  intros E U. destruct (existsb (fun w => if covers_dec w x then true else false) ws) eqn:B.
  - apply existsb_exists in B. destruct B as (w & I & C). destruct (covers_dec w x) as [C'|]; [|discriminate].
    rewrite (writes_at ws m x (wbyte w x)), (writes_at ws' m x (wbyte w x)); try reflexivity.
    + exists w. split; [apply E; exact I|exact C'].
    + intros v J K. rewrite (U w v); auto. apply E; exact J.
    + eauto.
    + intros v J K. rewrite (U w v); auto.
  - assert (N : forall w, In w ws -> ~ covers w x).
    { intros w I C. rewrite <- not_true_iff_false in B. apply B. apply existsb_exists. exists w. split; [exact I|]. destruct (covers_dec w x); [reflexivity|contradiction]. }
    rewrite !writes_out; [reflexivity| |exact N]. intros w I. apply N, E, I.
Qed.
Lemma fields_ok_perm r r' : Permutation (translate r) (translate r') -> fields_ok r -> fields_ok r'.
Proof.
  intros P OK m1 e1 a I A. destruct (OK m1 e1 a) as (B1 & B2 & B3); [apply (Permutation_in _ (Permutation_sym P)), I|exact A|].
  split; [exact B1|]. split; [exact B2|]. intros m2 e2 b J. apply B3. apply (Permutation_in _ (Permutation_sym P)), J.
Qed.
Lemma insert_perm sz p p' buf stride skip buf' : same_values p p' -> NoDup (map fst (translate (p_rule p))) -> fields_ok (p_rule p) ->
  full_rule (p_rule p) -> full_rule (p_rule p') -> 0 <= stride -> 0 <= sz ->
  insertParam sz p buf stride skip = Some buf' ->
  exists buf2, insertParam sz p' buf stride skip = Some buf2 /\ forall x, buf2 x = buf' x.
Proof.
  intros V ND OK F F' Hs Hz H. pose proof V as (E1 & E2 & E3 & P).
  assert (CW : forall tr base, copy_write p' tr base = copy_write p tr base) by (intros; unfold copy_write; rewrite E1, E2, E3; reflexivity).
  assert (X : exists buf2, insertParam sz p' buf stride skip = Some buf2).
  { unfold insertParam in H |- *. rewrite full_extent in H by exact F. rewrite full_extent by exact F'. destruct F as (_ & F2), F' as (_ & F2').
    rewrite F2 in H. rewrite F2'. cbn [fst] in *.
    destruct (omap _ _) as [cws|] eqn:O1 in H; [|discriminate]. cbn [obind] in H.
    destruct (omap _ _) as [tws|] eqn:O2 in H; [|discriminate].
    destruct (omap_some (fun i => copy_write p' (i + skip) (i * (stride + 240))) (zrange (Z.to_nat sz))) as (c & ->).
    { intros i I. rewrite CW. destruct (omap_total _ _ _ O1 i I) as (y & Y & _). eauto. }
    cbn [obind]. destruct (omap_some (fun i => trace_writes p' (i + skip) 0 ((240 + stride) * i)) (zrange (Z.to_nat sz))) as (c' & ->); [|cbn [obind]; eauto].
    intros i I. destruct (omap_total _ _ _ O2 i I) as (y & Y & _).
    destruct (trace_writes_perm p p' _ _ _ _ V ND OK Y) as (y' & Y' & _). eauto. }
  destruct X as (buf2 & X). exists buf2. split; [exact X|].
  destruct (insert_bytes _ _ _ _ _ _ F OK Hs Hz H) as (A & B).
  destruct (insert_bytes _ _ _ _ _ _ F' (fields_ok_perm _ _ P OK) Hs Hz X) as (A' & B').
  intros x. destruct (existsb (fun i => ((240 + stride) * i <=? x) && (x <? (240 + stride) * i + 240)) (zrange (Z.to_nat sz))) eqn:E.
  - apply existsb_exists in E. destruct E as (i & I & E). apply in_zrange in I.
    destruct (A i ltac:(lia)) as (cw & ws & C1 & T1 & Y1). destruct (A' i ltac:(lia)) as (cw' & ws' & C2 & T2 & Y2).
    rewrite CW, C1 in C2. injection C2 as <-. rewrite Y1, Y2 by lia.
    destruct (trace_writes_perm p p' _ _ _ _ V ND OK T1) as (w2 & T3 & M). rewrite T2 in T3. injection T3 as <-.
    symmetry. apply apply_same; [exact M|]. intros w v Iw Iv. apply (trace_write_unique _ _ _ _ _ ND OK T1 w v x Iw Iv).
  - rewrite B, B'; [reflexivity|..]; intros i Hi C; rewrite <- not_true_iff_false in E; apply E; apply existsb_exists; exists i;
      (split; [apply in_zrange; lia|lia]).
Qed.

(** ---- insertion is defined when the scale search is ---- *)
Definition scalable (v : value) : Prop :=
  (exists s, find_scalar (dbl_of v) = Some s) /\ forall s, in_s16 s -> exists q, dlround (ddiv (dbl_of v) (parse_scalar s)) = Some q.
Lemma insert_some sz p buf stride skip : wf_param p -> 0 <= skip -> skip + sz <= p_sz p ->
  (forall v s, find_scalar v = Some s -> in_s16 s) ->
  (forall cs, Forall in_s16 cs -> in_s16 (fold_left combine cs 1)) ->
  (forall i m e, 0 <= i < sz -> lookup m (translate (p_rule p)) = Some e -> e_type e = MFloat ->
     scalable (p_at p MFloat (slot (p_rule p) (i + skip) e))) ->
  exists buf', insertParam sz p buf stride skip = Some buf'.
Proof.
  intros W Hk Hle FR CR SC. pose proof W as ((ND & _) & _). unfold insertParam.
  destruct (omap_some (fun i => copy_write p (i + skip) (i * (stride + 240))) (zrange (Z.to_nat sz))) as (cws & ->).
  { intros i I. apply in_zrange in I. apply copy_write_some; [exact W|lia]. }
  cbn [obind]. set (st := r_start (p_rule p)). set (ex := fst _).
  destruct (omap_some (fun i => trace_writes p (i + skip) st ((ex + stride) * i)) (zrange (Z.to_nat sz))) as (tws & ->); [|cbn [obind]; eauto].
  intros i I. apply in_zrange in I. assert (Hi : 0 <= i < sz) by lia. clear I. unfold trace_writes. set (es := map snd (translate (p_rule p))).
  assert (VO : forall e, In e es -> e_type e <> MCopy -> val_of p (i + skip) e = Some (p_at p (e_type e) (slot (p_rule p) (i + skip) e)) /\
     (e_type e = MFloat -> scalable (p_at p MFloat (slot (p_rule p) (i + skip) e)))).
  { intros e J T. apply in_map_iff in J. destruct J as ((m & e') & <- & J). cbn [snd] in *. apply (in_lookup _ _ _ ND) in J.
    split; [apply (val_of_some p (i + skip) m); assumption || lia|]. apply (SC i m); assumption. }
  destruct (omap_some (int_write p (i + skip) st ((ex + stride) * i)) es) as (iw & ->).
  { intros e J. pose proof (VO e J) as V. unfold int_write.
    destruct (e_type e) eqn:T; try (eexists; reflexivity); (destruct V as (-> & _); [congruence|]); eexists; reflexivity. }
  cbn [obind]. destruct (scal_ok p (i + skip) es []) as (sc & S).
  { intros e J T. destruct (VO e J ltac:(congruence)) as (-> & B). rewrite T. apply B. exact T. }
  rewrite S. cbn [obind]. destruct (omap_some (float_write p (i + skip) st ((ex + stride) * i) sc) es) as (fw & ->); [|cbn [obind]; eauto].
  intros e J. unfold float_write. destruct (e_type e) eqn:T; try (eexists; reflexivity).
  destruct (VO e J ltac:(congruence)) as (-> & B). rewrite T. cbn [obind].
  destruct (scal_fold p (i + skip) es [] sc (NoDup_nil _) S) as (_ & G). destruct (G (e_scal e)) as (cs & A & C). cbn [sc_get] in C.
  assert (JF : In e (filter (fun e0 => mdtype_eqb (e_type e0) MFloat && (e_scal e0 =? e_scal e)) es)).
  { apply filter_In. split; [exact J|]. rewrite T, Z.eqb_refl. reflexivity. }
  assert (R : Forall in_s16 cs).
  { apply all_some_map in A. apply Forall_forall. intros s Is. assert (X : In (Some s) (cands p (i + skip) (e_scal e) es)) by (rewrite A; apply in_map; exact Is).
    unfold cands in X. apply in_map_iff in X. destruct X as (e0 & X & _). destruct (val_of p (i + skip) e0) as [v0|]; [|discriminate]. apply (FR _ _ X). }
  assert (N : cs <> []).
  { intros ->. unfold cands in A. destruct (filter _ es) as [|e0 l]; [destruct JF|]. cbn [map all_some] in A. destruct (obind _ _); [|discriminate]. destruct (all_some _); discriminate. }
  assert (SG : sc_get sc (e_scal e) = Some (fold_left combine cs 1)) by (destruct cs; [contradiction|exact C]).
  rewrite SG. cbn [obind]. destruct (proj2 (B T) (fold_left combine cs 1) (CR cs R)) as (q & ->). cbn [obind]. eauto.
Qed.
