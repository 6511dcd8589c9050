From Coq Require Import Permutation.
From Verif Require Import Base NumEncModel NumEncProofs DataIOModel RuleModel RuleProofs DoubleModel ParamModel.

Definition wf_param (p : param) : Prop :=
  good (p_rule p) /\ 0 <= p_sz p /\
  (forall t, t <> MCopy -> p_len p t = p_sz p * counts (p_rule p) t) /\
  p_len p MCopy = p_sz p * (if counts (p_rule p) MCopy =? 0 then 0 else 240).
Lemma newParam_wf r sz : good r -> 0 <= sz -> wf_param (newParam r sz).
Proof. intros G H. split; [exact G|]. split; [exact H|]. split; [intros t T; destruct t; try reflexivity; contradiction|reflexivity]. Qed.

(** ---- slots ---- *)
Lemma slot_bounds p tr m e : wf_param p -> lookup m (translate (p_rule p)) = Some e -> e_type e <> MCopy ->
  0 <= tr < p_sz p -> 0 <= slot (p_rule p) tr e < p_len p (e_type e).
Proof.
  intros (G & _ & L & _) H T Hi. rewrite L by exact T. unfold slot. pose proof (slots_range _ _ _ G H).
  set (c := counts (p_rule p) (e_type e)) in *.
  assert (0 <= c * tr) by (apply Z.mul_nonneg_nonneg; lia).
  assert ((tr + 1) * c <= p_sz p * c) by (apply Z.mul_le_mono_nonneg_r; lia). lia.
Qed.
Lemma slot_inj r tr tr' m m' e e' : good r -> lookup m (translate r) = Some e -> lookup m' (translate r) = Some e' ->
  e_type e = e_type e' -> slot r tr e = slot r tr' e' -> tr = tr' /\ m = m'.
Proof.
  intros G H H' T E. unfold slot in E. rewrite <- T in E.
  pose proof (slots_range _ _ _ G H) as R. pose proof (slots_range _ _ _ G H') as R'. rewrite <- T in R'.
  set (c := counts r (e_type e)) in *.
  assert (tr = tr').
  { destruct (Z.lt_trichotomy tr tr') as [L|[L|L]]; [|exact L|].
    - assert (c * (tr + 1) <= c * tr') by (apply Z.mul_le_mono_nonneg_l; lia). lia.
    - assert (c * (tr' + 1) <= c * tr) by (apply Z.mul_le_mono_nonneg_l; lia). lia. }
  subst tr'. split; [reflexivity|]. destruct (Z.eq_dec m m') as [|N]; [assumption|].
  exfalso. apply (slots_distinct r m m' e e' G H H' N T). lia.
Qed.
Lemma get_slot_some p t i : 0 <= i < p_len p t -> get_slot p t i = Some (p_at p t i).
Proof. intros H. unfold get_slot. replace ((0 <=? i) && (i <? p_len p t)) with true by lia. reflexivity. Qed.
Lemma set_slot_some p t i v : 0 <= i < p_len p t ->
  set_slot p t i v = Some (mkParam (p_rule p) (p_sz p) (p_len p) (upd (p_at p) t i v)).
Proof. intros H. unfold set_slot. replace ((0 <=? i) && (i <? p_len p t)) with true by lia. reflexivity. Qed.
Lemma wf_upd p f : wf_param p -> wf_param (mkParam (p_rule p) (p_sz p) (p_len p) f).
Proof. intros H. exact H. Qed.

(** a value of the entry's own type *)
Definition fits_type (t : mdtype) (v : value) : Prop :=
  match t, v with
  | MFloat, VF _ => True
  | MLong, VI z => in_s64 z
  | MShort, VI z => in_s16 z
  | MIndex, VI z => in_u64 z
  | _, _ => False
  end.
Lemma s64_id z : in_s64 z -> s64 z = z.
Proof. unfold in_s64, s64, two64. intros. rewrite Z.mod_small; lia. Qed.
Lemma u64_id z : in_u64 z -> u64 z = z.
Proof. unfold in_u64, u64. intros. apply Z.mod_small. lia. Qed.
Lemma convert_own t v : fits_type t v -> convert t v = Some v.
Proof.
  destruct t, v; cbn; try tauto; intros H; do 2 f_equal.
  - apply s64_id, H.
  - apply s16_id, H.
  - apply u64_id, H.
Qed.
Lemma set_get p i m v e : wf_param p -> lookup m (translate (p_rule p)) = Some e -> 0 <= i < p_sz p -> fits_type (e_type e) v ->
  exists p', setPrm i m v p = Some p' /\ p_rule p' = p_rule p /\ wf_param p' /\ p_sz p' = p_sz p /\
    getPrm i m p' = Some v /\
    forall i' m', 0 <= i' < p_sz p -> (i', m') <> (i, m) -> getPrm i' m' p' = getPrm i' m' p.
Proof.
  intros W H Hi F. unfold setPrm, getEntry. rewrite H.
  assert (T : e_type e <> MCopy) by (destruct (e_type e), v; cbn in F; congruence || contradiction).
  pose proof (slot_bounds p i m e W H T Hi) as B.
  set (p' := mkParam (p_rule p) (p_sz p) (p_len p) (upd (p_at p) (e_type e) (slot (p_rule p) i e) v)). exists p'.
  split.
  { pose proof (convert_own _ _ F) as CV. pose proof (set_slot_some p (e_type e) (slot (p_rule p) i e) v B) as SS.
    fold p' in SS. clearbody p'. clear - CV SS T. destruct (e_type e); try contradiction; rewrite CV; exact SS. }
  split; [reflexivity|]. split; [exact W|]. split; [reflexivity|]. split.
  - unfold getPrm, getEntry. change (p_rule p') with (p_rule p). rewrite H.
    replace (match e_type e with MCopy => Some (VI 0) | t => get_slot p' t (slot (p_rule p) i e) end)
      with (get_slot p' (e_type e) (slot (p_rule p) i e)) by (destruct (e_type e); try reflexivity; contradiction).
    rewrite get_slot_some by exact B. cbn [p_at p']. unfold upd. rewrite mdtype_eqb_refl, Z.eqb_refl. reflexivity.
  - intros i' m' Hi' N. unfold getPrm, getEntry. change (p_rule p') with (p_rule p).
    destruct (lookup m' (translate (p_rule p))) as [e'|] eqn:E'; [|reflexivity].
    assert (S : e_type e' <> MCopy -> get_slot p' (e_type e') (slot (p_rule p) i' e') = get_slot p (e_type e') (slot (p_rule p) i' e')).
    { intros T'. pose proof (slot_bounds p i' m' e' W E' T' Hi') as B'. rewrite !get_slot_some by exact B'.
      f_equal. cbn [p_at p']. unfold upd. destruct (mdtype_eqb_spec (e_type e') (e_type e)) as [TT|]; [|reflexivity].
      destruct (Z.eqb_spec (slot (p_rule p) i' e') (slot (p_rule p) i e)) as [SS|]; [|reflexivity]. exfalso.
      destruct W as (G & _). destruct (slot_inj _ _ _ _ _ _ _ G E' H TT SS). congruence. }
    destruct (e_type e'); try reflexivity; apply S; discriminate.
Qed.

(** ---- writes ---- *)
Definition covers (w : Z * list Z) (x : Z) : Prop := fst w <= x < fst w + Z.of_nat (length (snd w)).
Definition wbyte (w : Z * list Z) (x : Z) : Z := nth (Z.to_nat (x - fst w)) (snd w) 0.
Lemma put_in m w x : covers w x -> put m w x = wbyte w x.
Proof. unfold covers, put, wbyte. intros H. replace (_ && _) with true by lia. reflexivity. Qed.
Lemma put_out m w x : ~ covers w x -> put m w x = m x.
Proof. unfold covers, put. intros H. replace (_ && _) with false by lia. reflexivity. Qed.
Lemma covers_dec w x : {covers w x} + {~ covers w x}.
Proof. unfold covers. destruct (Z_le_gt_dec (fst w) x), (Z_lt_ge_dec x (fst w + Z.of_nat (length (snd w)))); [left|right..]; lia. Qed.
Lemma writes_out ws : forall m x, (forall w, In w ws -> ~ covers w x) -> apply_writes ws m x = m x.
Proof.
  induction ws as [|w ws IH]; intros m x H; [reflexivity|]. cbn. rewrite IH by (intros; apply H; right; assumption).
  apply put_out. apply H. left; reflexivity.
Qed.
(** all writes that cover x agree on the byte b *)
Lemma writes_at ws : forall m x b, (exists w, In w ws /\ covers w x) -> (forall w, In w ws -> covers w x -> wbyte w x = b) ->
  apply_writes ws m x = b.
Proof.
  induction ws as [|w ws IH]; intros m x b (w0 & I & C) A; [destruct I|].
  cbn. destruct (existsb (fun w => if covers_dec w x then true else false) ws) eqn:E.
  - apply existsb_exists in E. destruct E as (w1 & I1 & C1). destruct (covers_dec w1 x); [|discriminate].
    apply IH; [eauto|]. intros w2 I2. apply A. right; exact I2.
  - destruct I as [->|I].
    + rewrite writes_out.
      * rewrite put_in by exact C. apply A; [left; reflexivity|exact C].
      * intros w Hw Cw. assert (X : existsb (fun w => if covers_dec w x then true else false) ws = true).
        { apply existsb_exists. exists w. split; [exact Hw|]. destruct (covers_dec w x); [reflexivity|contradiction]. }
        congruence.
    + assert (X : existsb (fun w => if covers_dec w x then true else false) ws = true).
      { apply existsb_exists. exists w0. split; [exact I|]. destruct (covers_dec w0 x); [reflexivity|contradiction]. }
      congruence.
Qed.
Lemma writes_app a b m : apply_writes (a ++ b) m = apply_writes b (apply_writes a m).
Proof. unfold apply_writes. apply fold_left_app. Qed.
Lemma writes_ext ws : forall m m' x, m x = m' x -> apply_writes ws m x = apply_writes ws m' x.
Proof.
  induction ws as [|w ws IH]; intros m m' x E; [exact E|]. cbn. apply IH. unfold put. destruct (_ && _); [reflexivity|exact E].
Qed.

(** ---- option lists ---- *)
Lemma omap_in {A B} (f : A -> option B) : forall l r y, omap f l = Some r -> (In y r <-> exists x, In x l /\ f x = Some y).
Proof.
  induction l as [|a l IH]; cbn; intros r y H.
  - injection H as <-. cbn. split; [tauto|intros (x & [] & _)].
  - destruct (f a) as [b|] eqn:E; [|discriminate]. destruct (omap f l) as [bs|] eqn:E2; [|discriminate]. injection H as <-.
    cbn. rewrite (IH bs y eq_refl). split.
    + intros [<-|(x & I & F)]; [exists a; auto|exists x; auto].
    + intros (x & [<-|I] & F); [left; congruence|right; eauto].
Qed.
Lemma omap_total {A B} (f : A -> option B) l r : omap f l = Some r -> forall x, In x l -> exists y, f x = Some y /\ In y r.
Proof.
  revert r. induction l as [|a l IH]; cbn; intros r H x I; [destruct I|].
  destruct (f a) as [b|] eqn:E; [|discriminate]. destruct (omap f l) as [bs|] eqn:E2; [|discriminate]. injection H as <-.
  destruct I as [<-|I]; [exists b; cbn; auto|]. destruct (IH bs eq_refl x I) as (y & F & J). exists y. cbn. auto.
Qed.
Lemma omap_some {A B} (f : A -> option B) l : (forall x, In x l -> exists y, f x = Some y) -> exists r, omap f l = Some r.
Proof.
  induction l as [|a l IH]; cbn; intros H; [eauto|]. destruct (H a (or_introl eq_refl)) as (y & ->).
  destruct IH as (r & ->); [intros; apply H; right; assumption|]. eauto.
Qed.

(** ---- scale factors ---- *)
Lemma sc_get_set l tr s tr' : sc_get (sc_set l tr s) tr' = if tr =? tr' then Some s else sc_get l tr'.
Proof.
  unfold sc_set. cbn. destruct (Z.eqb_spec tr tr') as [|N]; [reflexivity|].
  induction l as [|[k v] l IH]; [reflexivity|]. cbn. destruct (Z.eqb_spec k tr) as [->|]; cbn.
  - destruct (Z.eqb_spec tr tr'); [contradiction|exact IH].
  - destruct (k =? tr'); [reflexivity|exact IH].
Qed.
Lemma sc_set_nodup l tr s : NoDup (map fst l) -> NoDup (map fst (sc_set l tr s)).
Proof.
  intros H. unfold sc_set. cbn. constructor.
  - rewrite in_map_iff. intros (x & E & I). apply filter_In in I. destruct I as (_ & I). subst. rewrite Z.eqb_refl in I. discriminate.
  - induction l as [|a l IH]; [constructor|]. cbn. inversion H; subst. destruct (negb (fst a =? tr)); [|apply IH; assumption].
    cbn. constructor; [|apply IH; assumption]. intros I. apply H2. apply in_map_iff in I. destruct I as (x & E & I).
    apply filter_In in I. rewrite <- E. apply in_map. tauto.
Qed.
Lemma sc_get_in l tr s : sc_get l tr = Some s -> In (tr, s) l.
Proof. induction l as [|[k v] l IH]; cbn; [discriminate|]. destruct (Z.eqb_spec k tr); [|auto]. intros H; injection H as <-; subst; auto. Qed.
Lemma in_sc_get l tr s : NoDup (map fst l) -> In (tr, s) l -> sc_get l tr = Some s.
Proof.
  induction l as [|[k v] l IH]; cbn; [tauto|]. intros ND [H|H]; inversion ND; subst.
  - injection H as -> ->. rewrite Z.eqb_refl. reflexivity.
  - destruct (Z.eqb_spec k tr) as [->|]; [|auto]. exfalso. apply H2. apply (in_map fst) in H. exact H.
Qed.
(** scale candidates of the float entries whose scale is stored at [loc] *)
Definition cands (p : param) (tr loc : Z) (es : list entry) : list (option Z) :=
  map (fun e => obind (val_of p tr e) (fun v => find_scalar (dbl_of v)))
      (filter (fun e => mdtype_eqb (e_type e) MFloat && (e_scal e =? loc)) es).
Fixpoint all_some {A} (l : list (option A)) : option (list A) :=
  match l with [] => Some [] | None :: _ => None | Some a :: r => option_map (cons a) (all_some r) end.
Lemma scal_fold_none p tr es : fold_left (scal_step p tr) es None = None.
Proof. induction es as [|e es IH]; [reflexivity|]. cbn. unfold scal_step at 2. destruct (e_type e); exact IH. Qed.
Lemma scal_fold p tr es : forall sc0 sc, NoDup (map fst sc0) -> fold_left (scal_step p tr) es (Some sc0) = Some sc ->
  NoDup (map fst sc) /\
  forall loc, exists cs, all_some (cands p tr loc es) = Some cs /\
    sc_get sc loc = match sc_get sc0 loc, cs with
                    | None, [] => None
                    | o, cs => Some (fold_left combine cs (match o with Some s => s | None => 1 end))
                    end.
Proof.
  induction es as [|e es IH]; intros sc0 sc ND H.
  - injection H as <-. split; [exact ND|]. intros loc. exists []. split; [reflexivity|]. destruct (sc_get sc0 loc); reflexivity.
  - cbn [fold_left] in H. unfold scal_step at 2 in H. destruct (e_type e) eqn:T;
      try (destruct (IH _ _ ND H) as (A & B); split; [exact A|]; intros loc; unfold cands; cbn [filter map]; rewrite T; cbn [mdtype_eqb andb]; apply B).
    cbn [obind] in H. destruct (val_of p tr e) as [v|] eqn:V; cbn [obind] in H; [|rewrite scal_fold_none in H; discriminate].
    destruct (find_scalar (dbl_of v)) as [s2|] eqn:F; cbn [obind] in H; [|rewrite scal_fold_none in H; discriminate].
    set (s1 := match sc_get sc0 (e_scal e) with Some s => s | None => 1 end) in *.
    destruct (IH _ _ (sc_set_nodup _ (e_scal e) (combine s1 s2) ND) H) as (A & B). split; [exact A|]. intros loc.
    destruct (B loc) as (cs & C1 & C2). rewrite sc_get_set in C2. unfold cands in *. cbn [filter]. rewrite T. cbn [mdtype_eqb andb].
    destruct (Z.eqb_spec (e_scal e) loc) as [E|E].
    + cbn [map all_some]. rewrite V. cbn [obind]. rewrite F. exists (s2 :: cs). split; [rewrite C1; reflexivity|].
      cbn [fold_left]. rewrite C2. subst loc. fold s1. destruct (sc_get sc0 (e_scal e)); reflexivity.
    + exists cs. split; [exact C1|exact C2].
Qed.
Lemma combine_comm2 a x y : combine (combine a x) y = combine (combine a y) x.
Proof.
  unfold combine.
  destruct (Z.ltb_spec 1 a), (Z.ltb_spec 1 x), (Z.ltb_spec 1 y); cbn [orb];
    repeat match goal with |- context [1 <? ?t] => destruct (Z.ltb_spec 1 t); cbn [orb] end; lia.
Qed.
Lemma combine_perm l l' : Permutation l l' -> forall a, fold_left combine l a = fold_left combine l' a.
Proof.
  induction 1; intros s; cbn; [reflexivity|apply IHPermutation| |].
  - rewrite combine_comm2. reflexivity.
  - rewrite IHPermutation1. apply IHPermutation2.
Qed.

(** ---- the fields of a rule ---- *)
Definition efields (e : entry) : list (Z * Z) :=
  match e_type e with
  | MLong => [(e_loc e, 4)] | MShort => [(e_loc e, 2)] | MFloat => [(e_loc e, 4); (e_scal e, 2)] | _ => []
  end.
Definition fdisjoint (a b : Z * Z) : Prop := fst a + snd a <= fst b \/ fst b + snd b <= fst a.
Definition is_scale (e : entry) (a : Z * Z) : Prop := e_type e = MFloat /\ a = (e_scal e, 2).
Definition fields_ok (r : rule) : Prop :=
  forall m1 e1 a, In (m1, e1) (translate r) -> In a (efields e1) ->
  1 <= fst a /\ fst a + snd a <= 241 /\
  forall m2 e2 b, In (m2, e2) (translate r) -> In b (efields e2) ->
  fdisjoint a b \/ (a = b /\ (m1 = m2 \/ (is_scale e1 a /\ is_scale e2 b))).
Lemma field_pos e a : In a (efields e) -> 0 < snd a.
Proof. unfold efields. destruct (e_type e); cbn; intros H; repeat destruct H as [H|H]; try contradiction; subst; cbn; lia. Qed.

(** what trace_writes consists of *)
Lemma trace_writes_inv p tr start base ws : trace_writes p tr start base = Some ws ->
  exists sc, fold_left (scal_step p tr) (map snd (translate (p_rule p))) (Some []) = Some sc /\
  forall w, In w ws <->
    (exists m e, In (m, e) (translate (p_rule p)) /\ (exists l, int_write p tr start base e = Some l /\ In w l)) \/
    (exists x, In x sc /\ w = scale_write start base x) \/
    (exists m e, In (m, e) (translate (p_rule p)) /\ (exists l, float_write p tr start base sc e = Some l /\ In w l)).
Proof.
  unfold trace_writes. destruct (omap (int_write p tr start base) _) as [iw|] eqn:E1; [|discriminate]. cbn [obind].
  destruct (fold_left _ _ _) as [sc|] eqn:E2; [|discriminate]. cbn [obind].
  destruct (omap (float_write p tr start base sc) _) as [fw|] eqn:E3; [|discriminate]. cbn [obind].
  intros H; injection H as <-. exists sc. split; [reflexivity|]. intros w. rewrite !in_app_iff, !in_concat, in_map_iff.
  assert (X : forall (f : entry -> option (list (Z * list Z))) r, omap f (map snd (translate (p_rule p))) = Some r ->
    ((exists l, In l r /\ In w l) <-> exists m e, In (m, e) (translate (p_rule p)) /\ exists l, f e = Some l /\ In w l)).
  { intros f r Hr. split.
    - intros (l & I & J). apply (omap_in f _ _ l Hr) in I. destruct I as (e & I & F). apply in_map_iff in I.
      destruct I as ((m & e') & <- & I). exists m, e'. split; [exact I|]. exists l. auto.
    - intros (m & e & I & l & F & J). exists l. split; [|exact J]. apply (omap_in f _ _ l Hr). exists e. split; [|exact F].
      apply in_map_iff. exists (m, e). auto. }
  rewrite (X _ _ E1), (X _ _ E3). split; intros [H|[H|H]]; auto; right; left.
  - destruct H as (x & <- & I). eauto.
  - destruct H as (x & I & ->). eauto.
Qed.

(** the field a write belongs to *)
Lemma scales_used p tr es sc : fold_left (scal_step p tr) es (Some []) = Some sc ->
  forall loc s, In (loc, s) sc -> exists e, In e es /\ e_type e = MFloat /\ e_scal e = loc.
Proof.
  intros H loc s I. destruct (scal_fold p tr es [] sc (NoDup_nil _) H) as (ND & B).
  destruct (B loc) as (cs & C1 & C2). rewrite (in_sc_get _ _ _ ND I) in C2. cbn in C2.
  assert (N : cands p tr loc es <> []) by (intros E; rewrite E in C1; injection C1 as <-; discriminate).
  unfold cands in N. destruct (filter _ es) as [|e l] eqn:F; [contradiction|].
  assert (J : In e (filter (fun e => mdtype_eqb (e_type e) MFloat && (e_scal e =? loc)) es)) by (rewrite F; left; reflexivity).
  apply filter_In in J. destruct J as (J & K). exists e. split; [exact J|]. apply andb_true_iff in K. destruct K as (K1 & K2).
  split; [|lia]. destruct (mdtype_eqb_spec (e_type e) MFloat); [assumption|discriminate].
Qed.
Lemma be_len n v : Z.of_nat (length (to_big_endian n v)) = Z.of_nat n.
Proof. f_equal. apply to_be_bytes. Qed.

(** Every write is a field of an entry; two writes that overlap are the same. *)
Definition write_of (start base : Z) (a : Z * Z) (w : Z * list Z) : Prop :=
  fst w = base + (fst a - start - 1) /\ Z.of_nat (length (snd w)) = snd a.
Lemma int_write_inv p tr start base e l w : int_write p tr start base e = Some l -> In w l ->
  l = [w] /\ write_of start base (hd (0, 0) (efields e)) w /\ (e_type e = MShort \/ e_type e = MLong).
Proof.
  unfold int_write, efields, write_of. destruct (e_type e) eqn:T; try (intros H; injection H as <-; intros []);
  destruct (val_of p tr e); try discriminate; cbn [obind]; intros H; injection H as <-; intros [<-|[]]; cbn [hd fst snd];
  rewrite be_len; split; [reflexivity|split; [split; [reflexivity|reflexivity]|auto]| reflexivity|split; [split; [reflexivity|reflexivity]|auto]].
Qed.
Lemma float_write_inv p tr start base sc e l w : float_write p tr start base sc e = Some l -> In w l ->
  l = [w] /\ write_of start base (e_loc e, 4) w /\ e_type e = MFloat.
Proof.
  unfold float_write, write_of. destruct (e_type e) eqn:T; try (intros H; injection H as <-; intros []; fail).
  destruct (val_of p tr e); [|discriminate]. cbn [obind]. destruct (sc_get sc (e_scal e)); [|discriminate]. cbn [obind].
  destruct (dlround _); [|discriminate]. cbn [obind]. intros H; injection H as <-; intros [<-|[]]. cbn [fst snd].
  rewrite be_len. auto.
Qed.
Lemma trace_write_field p tr start base ws : trace_writes p tr start base = Some ws ->
  forall w, In w ws -> exists m e a, In (m, e) (translate (p_rule p)) /\ In a (efields e) /\ write_of start base a w.
Proof.
  intros H w I. destruct (trace_writes_inv _ _ _ _ _ H) as (sc & S & C). apply C in I.
  destruct I as [(m & e & I & l & F & J)|[(x & I & ->)|(m & e & I & l & F & J)]].
  - destruct (int_write_inv _ _ _ _ _ _ _ F J) as (_ & W & T). exists m, e, (hd (0,0) (efields e)). split; [exact I|].
    split; [|exact W]. unfold efields. destruct T as [-> | ->]; left; reflexivity.
  - destruct x as (loc & s). destruct (scales_used _ _ _ _ S loc s I) as (e & J & T & L). apply in_map_iff in J.
    destruct J as ((m & e') & <- & J). exists m, e', (loc, 2). split; [exact J|]. cbn [snd] in *. unfold efields. rewrite T. subst loc. split; [right; left; reflexivity|].
    unfold write_of, scale_write. cbn [fst snd]. rewrite be_len. auto.
  - destruct (float_write_inv _ _ _ _ _ _ _ _ F J) as (_ & W & T). exists m, e, (e_loc e, 4). split; [exact I|].
    split; [|exact W]. unfold efields. rewrite T. left; reflexivity.
Qed.
Lemma write_overlap start base a b w v x : write_of start base a w -> write_of start base b v -> covers w x -> covers v x -> ~ fdisjoint a b.
Proof. unfold write_of, covers, fdisjoint. intros (A1 & A2) (B1 & B2) C1 C2 [D|D]; lia. Qed.
Lemma trace_write_unique p tr start base ws : NoDup (map fst (translate (p_rule p))) -> fields_ok (p_rule p) ->
  trace_writes p tr start base = Some ws ->
  forall w v x, In w ws -> In v ws -> covers w x -> covers v x -> w = v.
Proof.
  intros ND OK H w v x Iw Iv Cw Cv. destruct (trace_writes_inv _ _ _ _ _ H) as (sc & S & C).
  destruct (scal_fold p tr _ [] sc (NoDup_nil _) S) as (NDs & _).
  assert (SAME : forall m e e', In (m, e) (translate (p_rule p)) -> In (m, e') (translate (p_rule p)) -> e = e').
  { intros m e e' I I'. apply (in_lookup _ _ _ ND) in I. apply (in_lookup _ _ _ ND) in I'. congruence. }
  assert (DET : forall w, In w ws ->
     (exists m e, In (m, e) (translate (p_rule p)) /\ (e_type e = MShort \/ e_type e = MLong) /\ int_write p tr start base e = Some [w] /\ write_of start base (hd (0,0) (efields e)) w) \/
     (exists m e s, In (m, e) (translate (p_rule p)) /\ e_type e = MFloat /\ sc_get sc (e_scal e) = Some s /\ w = scale_write start base (e_scal e, s)) \/
     (exists m e, In (m, e) (translate (p_rule p)) /\ e_type e = MFloat /\ float_write p tr start base sc e = Some [w] /\ write_of start base (e_loc e, 4) w)).
  { intros u I. apply C in I. destruct I as [(m & e & I & l & F & J)|[((loc & s) & I & ->)|(m & e & I & l & F & J)]].
    - left. destruct (int_write_inv _ _ _ _ _ _ _ F J) as (-> & W & T). exists m, e. auto.
    - right; left. destruct (scales_used _ _ _ _ S loc s I) as (e & J & T & L). apply in_map_iff in J.
      destruct J as ((m & e') & <- & J). cbn [snd] in *. exists m, e', s. subst loc. split; [exact J|]. split; [exact T|].
      split; [apply in_sc_get; assumption|reflexivity].
    - right; right. destruct (float_write_inv _ _ _ _ _ _ _ _ F J) as (-> & W & T). exists m, e. auto. }
  assert (SW : forall e s, write_of start base (e_scal e, 2) (scale_write start base (e_scal e, s))).
  { intros e s. unfold write_of, scale_write. cbn [fst snd]. rewrite be_len. auto. }
  assert (HD : forall e, e_type e = MShort \/ e_type e = MLong -> In (hd (0,0) (efields e)) (efields e) /\ efields e = [hd (0,0) (efields e)]).
  { intros e [T|T]; unfold efields; rewrite T; cbn; auto. }
  destruct (DET w Iw) as [(m1 & e1 & I1 & T1 & F1 & W1)|[(m1 & e1 & s1 & I1 & T1 & F1 & W1)|(m1 & e1 & I1 & T1 & F1 & W1)]];
  destruct (DET v Iv) as [(m2 & e2 & I2 & T2 & F2 & W2)|[(m2 & e2 & s2 & I2 & T2 & F2 & W2)|(m2 & e2 & I2 & T2 & F2 & W2)]].
  - destruct (proj2 (proj2 (OK m1 e1 _ I1 (proj1 (HD e1 T1)))) m2 e2 _ I2 (proj1 (HD e2 T2))) as [D|(_ & [M|((S1 & _) & _)])].
    + exfalso. apply (write_overlap _ _ _ _ _ _ x W1 W2 Cw Cv D).
    + subst m2. rewrite (SAME _ _ _ I1 I2) in F1. congruence.
    + destruct T1; congruence.
  - subst v. assert (A : In (e_scal e2, 2) (efields e2)) by (unfold efields; rewrite T2; right; left; reflexivity).
    destruct (proj2 (proj2 (OK m1 e1 _ I1 (proj1 (HD e1 T1)))) m2 e2 _ I2 A) as [D|(_ & [M|((S1 & _) & _)])].
    + exfalso. apply (write_overlap _ _ _ _ _ _ x W1 (SW e2 s2) Cw Cv D).
    + subst m2. rewrite (SAME _ _ _ I1 I2) in T1. destruct T1; congruence.
    + destruct T1; congruence.
  - assert (A : In (e_loc e2, 4) (efields e2)) by (unfold efields; rewrite T2; left; reflexivity).
    destruct (proj2 (proj2 (OK m1 e1 _ I1 (proj1 (HD e1 T1)))) m2 e2 _ I2 A) as [D|(_ & [M|((S1 & _) & _)])].
    + exfalso. apply (write_overlap _ _ _ _ _ _ x W1 W2 Cw Cv D).
    + subst m2. rewrite (SAME _ _ _ I1 I2) in T1. destruct T1; congruence.
    + destruct T1; congruence.
  - subst w. assert (A : In (e_scal e1, 2) (efields e1)) by (unfold efields; rewrite T1; right; left; reflexivity).
    destruct (proj2 (proj2 (OK m1 e1 _ I1 A)) m2 e2 _ I2 (proj1 (HD e2 T2))) as [D|(_ & [M|(_ & (S1 & _))])].
    + exfalso. apply (write_overlap _ _ _ _ _ _ x (SW e1 s1) W2 Cw Cv D).
    + subst m2. rewrite (SAME _ _ _ I1 I2) in T1. destruct T2; congruence.
    + destruct T2; congruence.
  - subst w v. assert (A : In (e_scal e1, 2) (efields e1)) by (unfold efields; rewrite T1; right; left; reflexivity).
    assert (B : In (e_scal e2, 2) (efields e2)) by (unfold efields; rewrite T2; right; left; reflexivity).
    destruct (proj2 (proj2 (OK m1 e1 _ I1 A)) m2 e2 _ I2 B) as [D|(E & _)].
    + exfalso. apply (write_overlap _ _ _ _ _ _ x (SW e1 s1) (SW e2 s2) Cw Cv D).
    + injection E as E. rewrite E in *. congruence.
  - subst w. assert (A : In (e_scal e1, 2) (efields e1)) by (unfold efields; rewrite T1; right; left; reflexivity).
    assert (B : In (e_loc e2, 4) (efields e2)) by (unfold efields; rewrite T2; left; reflexivity).
    destruct (proj2 (proj2 (OK m1 e1 _ I1 A)) m2 e2 _ I2 B) as [D|(E & _)]; [|discriminate].
    exfalso. apply (write_overlap _ _ _ _ _ _ x (SW e1 s1) W2 Cw Cv D).
  - assert (A : In (e_loc e1, 4) (efields e1)) by (unfold efields; rewrite T1; left; reflexivity).
    destruct (proj2 (proj2 (OK m1 e1 _ I1 A)) m2 e2 _ I2 (proj1 (HD e2 T2))) as [D|(_ & [M|(_ & (S1 & _))])].
    + exfalso. apply (write_overlap _ _ _ _ _ _ x W1 W2 Cw Cv D).
    + subst m2. rewrite (SAME _ _ _ I1 I2) in T1. destruct T2; congruence.
    + destruct T2; congruence.
  - subst v. assert (A : In (e_loc e1, 4) (efields e1)) by (unfold efields; rewrite T1; left; reflexivity).
    assert (B : In (e_scal e2, 2) (efields e2)) by (unfold efields; rewrite T2; right; left; reflexivity).
    destruct (proj2 (proj2 (OK m1 e1 _ I1 A)) m2 e2 _ I2 B) as [D|(E & _)]; [|discriminate].
    exfalso. apply (write_overlap _ _ _ _ _ _ x W1 (SW e2 s2) Cw Cv D).
  - assert (A : In (e_loc e1, 4) (efields e1)) by (unfold efields; rewrite T1; left; reflexivity).
    assert (B : In (e_loc e2, 4) (efields e2)) by (unfold efields; rewrite T2; left; reflexivity).
    destruct (proj2 (proj2 (OK m1 e1 _ I1 A)) m2 e2 _ I2 B) as [D|(E & [M|((_ & S1) & _)])]; [| |discriminate].
    + exfalso. apply (write_overlap _ _ _ _ _ _ x W1 W2 Cw Cv D).
    + subst m2. rewrite (SAME _ _ _ I1 I2) in F1. congruence.
Qed.

(** reading back a written field *)
Lemma wbyte_nth w a k : covers w (a + k) -> fst w = a -> 0 <= k -> wbyte w (a + k) = nth (Z.to_nat k) (snd w) 0.
Proof. intros _ <- H. unfold wbyte. f_equal. lia. Qed.
Lemma rd16_written m a v : (forall k, 0 <= k < 2 -> m (a + k) = nth (Z.to_nat k) (to_big_endian 2 v) 0) -> rd16 m a = s16 v.
Proof.
  intros H. unfold rd16. pose proof (H 0 ltac:(lia)) as H0. pose proof (H 1 ltac:(lia)) as H1. rewrite Z.add_0_r in H0.
  rewrite H0, H1. apply dec16_be.
Qed.
Lemma rd32_written m a v : (forall k, 0 <= k < 4 -> m (a + k) = nth (Z.to_nat k) (to_big_endian 4 v) 0) -> rd32 m a = s32 v.
Proof.
  intros H. unfold rd32. pose proof (H 0 ltac:(lia)) as H0. pose proof (H 1 ltac:(lia)) as H1.
  pose proof (H 2 ltac:(lia)) as H2. pose proof (H 3 ltac:(lia)) as H3. rewrite Z.add_0_r in H0.
  rewrite H0, H1, H2, H3. apply dec32_be.
Qed.

(** ---- blocks of a list of traces ---- *)
Lemma zrange_split n i : 0 <= i < Z.of_nat n ->
  zrange n = zrange (Z.to_nat i) ++ i :: map (Z.add (i + 1)) (zrange (n - Z.to_nat i - 1)).
Proof.
  intros H. unfold zrange. replace n with (Z.to_nat i + S (n - Z.to_nat i - 1))%nat at 1 by lia.
  rewrite seq_app, map_app. f_equal. cbn [seq map Nat.add]. f_equal; [lia|].
  rewrite map_map. rewrite <- seq_shift.   assert (G : forall k a b, Z.of_nat b = i + 1 + Z.of_nat a -> map Z.of_nat (seq b k) = map (fun x => i + 1 + Z.of_nat x) (seq a k)).
  { induction k as [|k IH]; intros a b E; [reflexivity|]. cbn. f_equal; [exact E|]. apply IH. lia. }
  rewrite seq_shift. apply G. lia.
Qed.
Lemma omap_app {A B} (f : A -> option B) l1 : forall l2 r, omap f (l1 ++ l2) = Some r ->
  exists r1 r2, omap f l1 = Some r1 /\ omap f l2 = Some r2 /\ r = r1 ++ r2.
Proof.
  induction l1 as [|a l1 IH]; intros l2 r H; [exists [], r; auto|]. cbn in H. destruct (f a) eqn:E; [|discriminate].
  destruct (omap f (l1 ++ l2)) as [bs|] eqn:E2; [|discriminate]. injection H as <-.
  destruct (IH l2 bs E2) as (r1 & r2 & A1 & A2 & ->). exists (b :: r1), r2. cbn. rewrite E, A1. auto.
Qed.
Lemma omap_block {B} (f : Z -> option B) n r i : omap f (zrange n) = Some r -> 0 <= i < Z.of_nat n ->
  exists r1 b r2, r = r1 ++ b :: r2 /\ f i = Some b /\
  forall c, In c r1 \/ In c r2 -> exists j, 0 <= j < Z.of_nat n /\ j <> i /\ f j = Some c.
Proof.
  intros H Hi. rewrite (zrange_split n i Hi) in H. apply omap_app in H. destruct H as (r1 & r2 & H1 & H2 & ->).
  cbn in H2. destruct (f i) as [b|] eqn:E; [|discriminate]. destruct (omap f (map _ _)) as [r3|] eqn:E3; [|discriminate].
  injection H2 as <-. exists r1, b, r3. split; [reflexivity|]. split; [reflexivity|]. intros c [I|I].
  - apply (omap_in f _ _ c H1) in I. destruct I as (j & I & F). apply in_zrange in I. exists j. split; [lia|]. split; [lia|exact F].
  - apply (omap_in f _ _ c E3) in I. destruct I as (j & I & F). apply in_map_iff in I. destruct I as (k & <- & I).
    apply in_zrange in I. exists (i + 1 + k). split; [lia|]. split; [lia|exact F].
Qed.
Lemma writes_block (r1 : list (list (Z * list Z))) b r2 m x :
  (forall c w, In c r1 \/ In c r2 -> In w c -> ~ covers w x) ->
  apply_writes (concat (r1 ++ b :: r2)) m x = apply_writes b m x.
Proof.
  intros H. rewrite concat_app. cbn [concat]. rewrite !writes_app. rewrite writes_out.
  - apply writes_ext. apply writes_out. intros w I. apply in_concat in I. destruct I as (c & I & J). apply (H c w); auto.
  - intros w I. apply in_concat in I. destruct I as (c & I & J). apply (H c w); auto.
Qed.

Definition full_rule (r : rule) : Prop := r_full r = true /\ r_start r = 0.
Lemma full_extent r : full_rule r -> extent r = (240, r).
Proof. intros (F & _). unfold extent. rewrite F. reflexivity. Qed.
Lemma newRule_full ms d x : full_rule (newRule ms true d x).
Proof. unfold newRule. split; reflexivity. Qed.
Lemma run_op_full r o : full_rule r -> full_rule (run_op r o).
Proof.
  intros F. assert (RM : forall m r, full_rule r -> full_rule (rmRule m r)).
  { intros m r0 F0. unfold rmRule. destruct (lookup m (translate r0)); [exact F0|exact F0]. }
  assert (AE : forall t m l s r, full_rule r -> full_rule (add_entry t m l s r)).
  { intros t m l s r0 F0. unfold add_entry. apply (RM m) in F0. exact F0. }
  assert (AC : forall r, full_rule r -> full_rule (addCopy r)) by (intros r0 F0; unfold addCopy; destruct (_ =? 0); exact F0).
  destruct o; cbn [run_op]; try (apply AE; exact F); [|apply AC, F|apply RM, F|].
  - unfold addRule. destruct (lookup m (translate r)); [exact F|]. destruct (predefined m) as [p|]; [|exact F].
    destruct p; cbn [snd add_proto]; try (apply AE; exact F). apply AC, F.
  - rewrite full_extent by exact F. exact F.
Qed.

(** a trace's writes stay in its header *)
Lemma trace_in_header p tr base ws : fields_ok (p_rule p) -> trace_writes p tr 0 base = Some ws ->
  forall w x, In w ws -> covers w x -> base <= x < base + 240.
Proof.
  intros OK H w x I C. destruct (trace_write_field _ _ _ _ _ H w I) as (m & e & a & J & A & (W1 & W2)).
  destruct (OK m e a J A) as (B1 & B2 & _). unfold covers in C. lia.
Qed.
Lemma copy_in_header p tr base ws : copy_write p tr base = Some ws ->
  forall w x, In w ws -> covers w x -> base <= x < base + 240.
Proof.
  unfold copy_write. destruct (_ =? 0); [intros H; injection H as <-; intros w x []|].
  destruct (_ && _); [|discriminate]. assert (L : length (zrange 240) = 240%nat) by reflexivity. revert L.
  generalize (zrange 240). intros l L H. injection H as <-. intros w x [<-|[]]. unfold covers. cbn [fst snd].
  rewrite map_length. lia.
Qed.
Lemma header_apart stride i j x : 0 <= stride -> 0 <= i -> 0 <= j -> i <> j ->
  (240 + stride) * i <= x < (240 + stride) * i + 240 -> (240 + stride) * j <= x < (240 + stride) * j + 240 -> False.
Proof.
  intros Hs Hi Hj N A B. destruct (Z.lt_trichotomy i j) as [L|[L|L]]; [|contradiction|].
  - assert ((240 + stride) * (i + 1) <= (240 + stride) * j) by (apply Z.mul_le_mono_nonneg_l; lia). lia.
  - assert ((240 + stride) * (j + 1) <= (240 + stride) * i) by (apply Z.mul_le_mono_nonneg_l; lia). lia.
Qed.
Lemma insert_bytes sz p buf stride skip buf' : full_rule (p_rule p) -> fields_ok (p_rule p) -> 0 <= stride -> 0 <= sz ->
  insertParam sz p buf stride skip = Some buf' ->
  (forall i, 0 <= i < sz -> exists cw ws,
     copy_write p (i + skip) ((240 + stride) * i) = Some cw /\
     trace_writes p (i + skip) 0 ((240 + stride) * i) = Some ws /\
     forall x, (240 + stride) * i <= x < (240 + stride) * i + 240 -> buf' x = apply_writes ws (apply_writes cw buf) x) /\
  (forall x, (forall i, 0 <= i < sz -> ~ ((240 + stride) * i <= x < (240 + stride) * i + 240)) -> buf' x = buf x).
Proof.
  intros F OK Hs Hz H. unfold insertParam in H. rewrite full_extent in H by exact F. destruct F as (F1 & F2). rewrite F2 in H. cbn [fst] in H.
  destruct (omap _ _) as [cws|] eqn:E1 in H; [|discriminate]. cbn [obind] in H.
  destruct (omap _ _) as [tws|] eqn:E2 in H; [|discriminate]. cbn [obind] in H. injection H as <-.
  assert (N : Z.of_nat (Z.to_nat sz) = sz) by lia. split.
  - intros i Hi. rewrite <- N in Hi.
    destruct (omap_block _ _ _ i E1 Hi) as (r1 & cw & r2 & -> & C & O).
    destruct (omap_block _ _ _ i E2 Hi) as (s1 & ws & s2 & -> & W & P).
    replace (i * (stride + 240)) with ((240 + stride) * i) in C by lia.
    exists cw, ws. split; [exact C|]. split; [exact W|]. intros x Hx. rewrite writes_app. rewrite writes_block.
    + apply writes_ext. apply writes_block. intros c w I J K. destruct (O c I) as (j & Hj & D & Fj).
      pose proof (copy_in_header _ _ _ _ Fj w x J K) as B. replace (j * (stride + 240)) with ((240 + stride) * j) in B by lia.
      apply (header_apart stride i j x); try assumption; lia.
    + intros c w I J K. destruct (P c I) as (j & Hj & D & Fj).
      pose proof (trace_in_header _ _ _ _ OK Fj w x J K) as B.
      apply (header_apart stride i j x); try assumption; lia.
  - intros x Hx. apply writes_out. intros w I K. apply in_app_iff in I. destruct I as [I|I]; apply in_concat in I; destruct I as (c & I & J).
    + apply (omap_in _ _ _ c E1) in I. destruct I as (j & I & Fj). apply in_zrange in I.
      pose proof (copy_in_header _ _ _ _ Fj w x J K) as B. apply (Hx j); lia.
    + apply (omap_in _ _ _ c E2) in I. destruct I as (j & I & Fj). apply in_zrange in I.
      pose proof (trace_in_header _ _ _ _ OK Fj w x J K) as B. apply (Hx j); lia.
Qed.

(** ---- extraction ---- *)
Lemma decode_copyfree m start base e v : decode m start base e = Some v -> e_type e <> MCopy /\ e_type e <> MIndex.
Proof. unfold decode. destruct (e_type e); try discriminate; split; discriminate. Qed.
Lemma extract_list m start base tr : forall l p, wf_param p -> 0 <= tr < p_sz p ->
  incl l (translate (p_rule p)) -> NoDup (map fst l) ->
  exists p', fold_left (extract_entry m start base tr) (map snd l) (Some p) = Some p' /\
  p_rule p' = p_rule p /\ p_sz p' = p_sz p /\ p_len p' = p_len p /\
  (forall k e v, In (k, e) l -> decode m start base e = Some v -> p_at p' (e_type e) (slot (p_rule p) tr e) = v) /\
  (forall t i, (forall k e v, In (k, e) l -> decode m start base e = Some v -> (t, i) <> (e_type e, slot (p_rule p) tr e)) ->
     p_at p' t i = p_at p t i).
Proof.
  induction l as [|[k0 e0] l IH]; intros p W Ht IN ND.
  - exists p. cbn. repeat (split; [reflexivity|]). split; [intros k e v []|auto].
  - cbn [map snd fold_left]. inversion ND as [|? ? NK ND']; subst. cbn [fst] in NK.
    pose proof W as (G & _). assert (ND2 : NoDup (map fst (translate (p_rule p)))) by (destruct G; assumption).
    assert (L0 : lookup k0 (translate (p_rule p)) = Some e0) by (apply in_lookup; [exact ND2|apply IN; left; reflexivity]).
    unfold extract_entry at 2. cbn [obind]. destruct (decode m start base e0) as [v0|] eqn:E0.
    + destruct (decode_copyfree _ _ _ _ _ E0) as (T0 & _).
      rewrite set_slot_some by (apply (slot_bounds p tr k0); assumption).
      set (p1 := mkParam _ _ _ _).
      destruct (IH p1) as (p' & F & A1 & A2 & A3 & A4 & A5); [exact W|exact Ht|intros y Y; apply IN; right; exact Y|exact ND'|].
      exists p'. split; [exact F|]. split; [exact A1|]. split; [exact A2|]. split; [exact A3|].
      change (p_rule p1) with (p_rule p) in *. split.
      * intros k e v [I|I] De; [|apply (A4 k); assumption]. injection I as -> ->. rewrite De in E0. injection E0 as ->.
        rewrite A5; [cbn [p_at p1]; unfold upd; rewrite mdtype_eqb_refl, Z.eqb_refl; reflexivity|].
        intros k' e' v' I' De' EQ. injection EQ as T S.
        assert (L' : lookup k' (translate (p_rule p)) = Some e') by (apply in_lookup; [exact ND2|apply IN; right; exact I']).
        destruct (slot_inj _ _ _ _ _ _ _ G L0 L' T S) as (_ & ->). apply NK. apply (in_map fst) in I'. exact I'.
      * intros t i H. rewrite A5 by (intros k e v I; apply (H k); right; exact I). cbn [p_at p1]. unfold upd.
        destruct (mdtype_eqb_spec t (e_type e0)) as [->|]; [|reflexivity]. destruct (Z.eqb_spec i (slot (p_rule p) tr e0)) as [->|]; [|reflexivity].
        exfalso. apply (H k0 e0 v0); [left; reflexivity|exact E0|reflexivity].
    + destruct (IH p W Ht) as (p' & F & A1 & A2 & A3 & A4 & A5); [intros y Y; apply IN; right; exact Y|exact ND'|].
      exists p'. split; [exact F|]. split; [exact A1|]. split; [exact A2|]. split; [exact A3|]. split.
      * intros k e v [I|I] De; [injection I as -> ->; congruence|apply (A4 k); assumption].
      * intros t i H. apply A5. intros k e v I. apply (H k). right; exact I.
Qed.
Lemma extract_traces m start (basef : Z -> Z) skip : forall is p, wf_param p -> NoDup is ->
  (forall i, In i is -> 0 <= i + skip < p_sz p) ->
  exists p', fold_left (fun op i => fold_left (extract_entry m start (basef i) (i + skip)) (map snd (translate (p_rule p))) op) is (Some p) = Some p' /\
  p_rule p' = p_rule p /\ p_sz p' = p_sz p /\ p_len p' = p_len p /\
  (forall i k e v, In i is -> In (k, e) (translate (p_rule p)) -> decode m start (basef i) e = Some v ->
     p_at p' (e_type e) (slot (p_rule p) (i + skip) e) = v) /\
  (forall t x, (forall i k e v, In i is -> In (k, e) (translate (p_rule p)) -> decode m start (basef i) e = Some v ->
       (t, x) <> (e_type e, slot (p_rule p) (i + skip) e)) -> p_at p' t x = p_at p t x).
Proof.
  induction is as [|i is IH]; intros p W ND H.
  - exists p. cbn. repeat (split; [reflexivity|]). split; [intros i k e v []|auto].
  - cbn [fold_left]. inversion ND as [|? ? NI ND']; subst. pose proof W as (G & _).
    assert (ND2 : NoDup (map fst (translate (p_rule p)))) by (destruct G; assumption).
    destruct (extract_list m start (basef i) (i + skip) (translate (p_rule p)) p W (H i (or_introl eq_refl)) (incl_refl _) ND2)
      as (p1 & F1 & R1 & S1 & L1 & A1 & U1). rewrite F1.
    assert (W1 : wf_param p1) by (unfold wf_param; rewrite R1, S1, L1; exact W).
    destruct (IH p1) as (p' & F & R & S & L & A & U); [exact W1|exact ND'|rewrite S1; intros; apply H; right; assumption|].
    rewrite R1 in *. exists p'. split; [exact F|]. split; [exact R|]. split; [congruence|]. split; [congruence|]. split.
    + intros i' k e v [<-|I] J De; [|apply (A i' k); assumption]. rewrite U; [apply (A1 k); assumption|].
      intros i' k' e' v' I' J' De' EQ. injection EQ as T SS.
      destruct (slot_inj _ _ _ _ _ _ _ G (in_lookup _ _ _ ND2 J) (in_lookup _ _ _ ND2 J') T SS) as (E & _).
      apply NI. replace i with i' by lia. exact I'.
    + intros t x Hx. rewrite U by (intros i' k e v I; apply (Hx i' k); right; exact I).
      apply U1. intros k e v I. apply (Hx i k). left; reflexivity. exact I.
Qed.
Lemma copy_traces m (basef : Z -> Z) skip : forall is p, NoDup is ->
  (forall i, In i is -> 0 <= i + skip /\ (i + skip + 1) * 240 <= p_len p MCopy) ->
  exists p', fold_left (fun op i => obind op (copy_in m (basef i) (i + skip))) is (Some p) = Some p' /\
  p_rule p' = p_rule p /\ p_sz p' = p_sz p /\ p_len p' = p_len p /\
  (forall i x, In i is -> 0 <= x < 240 -> p_at p' MCopy ((i + skip) * 240 + x) = VI (m (basef i + x))) /\
  (forall t x, (t = MCopy -> forall i, In i is -> ~ ((i + skip) * 240 <= x < (i + skip) * 240 + 240)) -> p_at p' t x = p_at p t x).
Proof.
  induction is as [|i is IH]; intros p ND H.
  - exists p. cbn. repeat (split; [reflexivity|]). split; [intros i x []|auto].
  - cbn [fold_left obind]. inversion ND as [|? ? NI ND']; subst. destruct (H i (or_introl eq_refl)) as (H1 & H2).
    unfold copy_in at 2. replace ((0 <=? (i + skip) * 240) && ((i + skip + 1) * 240 <=? p_len p MCopy)) with true by lia.
    set (p1 := mkParam _ _ _ _).
    destruct (IH p1) as (p' & F & R & S & L & A & U); [exact ND'|intros j J; apply H; right; exact J|].
    exists p'. split; [exact F|]. split; [exact R|]. split; [exact S|]. split; [exact L|]. split.
    + intros j x [<-|I] Hx; [|apply A; assumption]. rewrite U.
      * cbn [p_at p1 mdtype_eqb andb]. replace (_ && _) with true by lia. do 2 f_equal. lia.
      * intros _ j J C. apply NI. replace i with j by lia. exact J.
    + intros t x Hx. rewrite U by (intros T j J; apply (Hx T); right; exact J). cbn [p_at p1].
      destruct (mdtype_eqb_spec t MCopy) as [T|]; [|reflexivity]. cbn [andb].
      replace ((_ <=? x) && (x <? _)) with false; [reflexivity|]. specialize (Hx T i (or_introl eq_refl)). lia.
Qed.
Lemma extract_spec sz m b0 p stride skip : wf_param p -> full_rule (p_rule p) -> 0 <= sz -> 0 <= skip -> skip + sz <= p_sz p ->
  exists p', extractParam sz m b0 p stride skip = Some p' /\ wf_param p' /\
  p_rule p' = p_rule p /\ p_sz p' = p_sz p /\ p_len p' = p_len p /\
  (forall i k e v, 0 <= i < sz -> In (k, e) (translate (p_rule p)) -> decode m 0 (b0 + (240 + stride) * i) e = Some v ->
     p_at p' (e_type e) (slot (p_rule p) (i + skip) e) = v) /\
  (counts (p_rule p) MCopy <> 0 -> forall i x, 0 <= i < sz -> 0 <= x < 240 ->
     p_at p' MCopy ((i + skip) * 240 + x) = VI (m (b0 + (240 + stride) * i + x))) /\
  (forall t x,
     (forall i k e v, 0 <= i < sz -> In (k, e) (translate (p_rule p)) -> decode m 0 (b0 + (240 + stride) * i) e = Some v ->
       (t, x) <> (e_type e, slot (p_rule p) (i + skip) e)) ->
     (t = MCopy -> counts (p_rule p) MCopy <> 0 -> ~ (skip * 240 <= x < (skip + sz) * 240)) -> p_at p' t x = p_at p t x).
Proof.
  intros W F Hz Hk Hle. unfold extractParam. destruct (Z.eqb_spec sz 0) as [->|NZ].
  { exists p. split; [reflexivity|]. split; [exact W|]. repeat (split; [reflexivity|]). split; [intros; lia|]. split; [intros; lia|auto]. }
  set (is := zrange (Z.to_nat sz)).
  assert (Iis : forall i, In i is <-> 0 <= i < sz) by (intros i; unfold is; rewrite in_zrange; lia).
  assert (NDis : NoDup is) by apply nodup_zrange. clearbody is.
  assert (C : exists p1, (if counts (p_rule p) MCopy =? 0 then Some p
       else fold_left (fun op i => obind op (copy_in m (b0 + i * (stride + 240)) (i + skip))) is (Some p)) = Some p1 /\
     p_rule p1 = p_rule p /\ p_sz p1 = p_sz p /\ p_len p1 = p_len p /\
     (counts (p_rule p) MCopy <> 0 -> forall i x, 0 <= i < sz -> 0 <= x < 240 ->
       p_at p1 MCopy ((i + skip) * 240 + x) = VI (m (b0 + (240 + stride) * i + x))) /\
     (forall t x, (t = MCopy -> counts (p_rule p) MCopy <> 0 -> ~ (skip * 240 <= x < (skip + sz) * 240)) -> p_at p1 t x = p_at p t x)).
  { destruct (Z.eqb_spec (counts (p_rule p) MCopy) 0) as [E|E].
    - exists p. repeat (split; [reflexivity|]). split; [contradiction|auto].
    - destruct W as (_ & _ & _ & LC). destruct (Z.eqb_spec (counts (p_rule p) MCopy) 0); [contradiction|].
      destruct (copy_traces m (fun i => b0 + i * (stride + 240)) skip is p NDis) as (p1 & F1 & R1 & S1 & L1 & A1 & U1).
      { intros i I. apply Iis in I. rewrite LC. split; [lia|]. apply Z.mul_le_mono_nonneg_r; lia. }
      exists p1. split; [exact F1|]. split; [exact R1|]. split; [exact S1|]. split; [exact L1|]. split.
      + intros _ i x Hi Hx. rewrite A1 by (try apply Iis; lia). do 2 f_equal. lia.
      + intros t x H. apply U1. intros T i I. apply Iis in I. specialize (H T E). lia. }
  destruct C as (p1 & E1 & R1 & S1 & L1 & A1 & U1). rewrite E1. cbn [obind]. rewrite R1, full_extent by exact F.
  destruct F as (F1 & F2). rewrite F2.
  set (p2 := mkParam _ _ _ _).
  assert (W2 : wf_param p2) by (unfold wf_param, p2; cbn; rewrite S1, L1; exact W).
  destruct (extract_traces m 0 (fun i => b0 + (240 + stride) * i) skip is p2 W2 NDis) as (p' & F & R & S & L & A & U).
  { intros i I. apply Iis in I. cbn [p2 p_sz]. rewrite S1. lia. }
  change (p_rule p2) with (p_rule p) in *. exists p'. split; [exact F|].
  change (p_sz p2) with (p_sz p1) in S. change (p_len p2) with (p_len p1) in L.
  split; [unfold wf_param; rewrite R, S, L, S1, L1; exact W|]. split; [exact R|]. split; [congruence|]. split; [congruence|]. split; [|split].
  - intros i k e v Hi. apply A. apply Iis. exact Hi.
  - intros NC i x Hi Hx. rewrite U; [cbn [p2 p_at]; apply A1; assumption|].
    intros i' k e v I J De EQ. destruct (decode_copyfree _ _ _ _ _ De) as (T & _). injection EQ as T2 _. congruence.
  - intros t x H1 H2. rewrite U; [cbn [p2 p_at]; apply U1; exact H2|]. intros i k e v I. apply (H1 i k). apply Iis. exact I.
Qed.
