(** Lemmas about the model of reading and writing files: byte order in place,
    transfers of whole traces, headers or samples. *)
From Verif Require Import Base NumEncModel NumEncSpec NumEncProofs CharEncModel LayoutModel LayoutProofs DataIOModel DataIOProofs
  RuleModel DoubleModel ParamModel ParamProofs FileSpec FileModel.

Lemma zrange_S n : zrange (S n) = zrange n ++ [Z.of_nat n].
Proof. unfold zrange. rewrite seq_S, map_app. reflexivity. Qed.
Lemma zr_nat n : zr (Z.of_nat n) = zrange n.
Proof. unfold zr. rewrite Nat2Z.id. reflexivity. Qed.

Lemma be_le_bytes m a : (forall k, 0 <= k < 4 -> is_byte (m (a + k))) ->
  to_be_float (le32 m a) = [m (a + 3); m (a + 2); m (a + 1); m a].
Proof.
  intros B. pose proof (B 0 ltac:(lia)) as B0. pose proof (B 1 ltac:(lia)). pose proof (B 2 ltac:(lia)). pose proof (B 3 ltac:(lia)).
  rewrite Z.add_0_r in B0. unfold to_be_float. pose proof (be4_digits (m (a + 3)) (m (a + 2)) (m (a + 1)) (m a) 0) as D.
  rewrite <- D by assumption. f_equal. unfold le32, be_value. cbn [fold_left]. lia.
Qed.
Lemma le_be_bytes b0 b1 b2 b3 : is_byte b0 -> is_byte b1 -> is_byte b2 -> is_byte b3 ->
  le_bytes (from_be_float b0 b1 b2 b3) = [b3; b2; b1; b0].
Proof.
  intros A B C D. destruct (enc32_dec b0 b1 b2 b3 A B C D) as (_ & E). rewrite to_be4 in E.
  unfold le_bytes, from_be_float. injection E as E0 E1 E2 E3. rewrite E0, E1, E2, E3. reflexivity.
Qed.

Definition swapped (m : mem) (i x : Z) : Z := if (4 * i <=? x) && (x <? 4 * i + 4) then m (8 * i + 3 - x) else m x.
Lemma put4 m a l x : length l = 4%nat ->
  put m (a, l) x = if (a <=? x) && (x <? a + 4) then nth (Z.to_nat (x - a)) l 0 else m x.
Proof. intros L. unfold put. cbn [fst snd]. rewrite L. reflexivity. Qed.
Lemma four (P : Z -> Prop) i x : 4 * i <= x < 4 * i + 4 -> P (4 * i) -> P (4 * i + 1) -> P (4 * i + 2) -> P (4 * i + 3) -> P x.
Proof.
  intros H A B C D. assert (x = 4 * i \/ x = 4 * i + 1 \/ x = 4 * i + 2 \/ x = 4 * i + 3) as [E|[E|[E|E]]] by lia; rewrite E; assumption.
Qed.
Lemma to_disk_step_spec m i x : (forall k, 0 <= k < 4 -> is_byte (m (4 * i + k))) -> to_disk_step m i x = swapped m i x.
Proof.
  intros B. unfold to_disk_step, swapped. rewrite be_le_bytes by exact B. rewrite put4 by reflexivity.
  destruct ((4 * i <=? x) && (x <? 4 * i + 4)) eqn:E; [|reflexivity].
  assert (H : 4 * i <= x < 4 * i + 4) by lia.
  apply (four (fun x => nth (Z.to_nat (x - 4 * i)) [m (4 * i + 3); m (4 * i + 2); m (4 * i + 1); m (4 * i)] 0 = m (8 * i + 3 - x)) i x H).
  - replace (4 * i - 4 * i) with 0 by lia. change (Z.to_nat 0) with 0%nat. cbn [nth]. f_equal. lia.
  - replace (4 * i + 1 - 4 * i) with 1 by lia. change (Z.to_nat 1) with 1%nat. cbn [nth]. f_equal. lia.
  - replace (4 * i + 2 - 4 * i) with 2 by lia. change (Z.to_nat 2) with 2%nat. cbn [nth]. f_equal. lia.
  - replace (4 * i + 3 - 4 * i) with 3 by lia. change (Z.to_nat 3) with 3%nat. cbn [nth]. f_equal. lia.
Qed.
Lemma from_disk_step_spec m i x : (forall k, 0 <= k < 4 -> is_byte (m (4 * i + k))) -> from_disk_step m i x = swapped m i x.
Proof.
  intros B. unfold from_disk_step, swapped. pose proof (B 0 ltac:(lia)) as B0. rewrite Z.add_0_r in B0.
  rewrite le_be_bytes by (first [exact B0 | apply B; lia]). rewrite put4 by reflexivity.
  destruct ((4 * i <=? x) && (x <? 4 * i + 4)) eqn:E; [|reflexivity].
  assert (H : 4 * i <= x < 4 * i + 4) by lia.
  apply (four (fun x => nth (Z.to_nat (x - 4 * i)) [m (4 * i + 3); m (4 * i + 2); m (4 * i + 1); m (4 * i)] 0 = m (8 * i + 3 - x)) i x H).
  - replace (4 * i - 4 * i) with 0 by lia. change (Z.to_nat 0) with 0%nat. cbn [nth]. f_equal. lia.
  - replace (4 * i + 1 - 4 * i) with 1 by lia. change (Z.to_nat 1) with 1%nat. cbn [nth]. f_equal. lia.
  - replace (4 * i + 2 - 4 * i) with 2 by lia. change (Z.to_nat 2) with 2%nat. cbn [nth]. f_equal. lia.
  - replace (4 * i + 3 - 4 * i) with 3 by lia. change (Z.to_nat 3) with 3%nat. cbn [nth]. f_equal. lia.
Qed.
Lemma swap_fold (stp : mem -> Z -> mem)
  (H : forall m i x, (forall k, 0 <= k < 4 -> is_byte (m (4 * i + k))) -> stp m i x = swapped m i x) n m :
  0 <= n -> (forall x, 0 <= x < 4 * n -> is_byte (m x)) ->
  forall x, fold_left stp (zr n) m x = if (0 <=? x) && (x <? 4 * n) then m (8 * (x / 4) + 3 - x) else m x.
Proof.
  intros N B. rewrite <- (Z2Nat.id n) in * by exact N. generalize dependent (Z.to_nat n). clear n. intros n N B.
  rewrite zr_nat. induction n as [|n IH]; intros x.
  - cbn. destruct (_ && _) eqn:E; [exfalso; lia|reflexivity].
  - rewrite zrange_S, fold_left_app. cbn [fold_left].
    assert (IH' : forall x, fold_left stp (zrange n) m x = if (0 <=? x) && (x <? 4 * Z.of_nat n) then m (8 * (x / 4) + 3 - x) else m x).
    { apply IH; [lia|intros; apply B; lia]. }
    rewrite H.
    2:{ intros k K. rewrite IH'. replace (_ && _) with false by lia. apply B. lia. }
    unfold swapped. destruct ((4 * Z.of_nat n <=? x) && (x <? 4 * Z.of_nat n + 4)) eqn:E.
    + rewrite IH'. replace (_ && _) with false by lia.
      replace ((0 <=? x) && (x <? 4 * Z.of_nat (S n))) with true by lia.
      replace (x / 4) with (Z.of_nat n); [reflexivity|]. apply Z.div_unique with (x - 4 * Z.of_nat n); lia.
    + rewrite IH'. destruct ((0 <=? x) && (x <? 4 * Z.of_nat n)) eqn:F.
      * replace ((0 <=? x) && (x <? 4 * Z.of_nat (S n))) with true by lia. reflexivity.
      * replace ((0 <=? x) && (x <? 4 * Z.of_nat (S n))) with false by lia. reflexivity.
Qed.
Lemma to_disk_spec n m x : 0 <= n -> (forall x, 0 <= x < 4 * n -> is_byte (m x)) ->
  to_disk n m x = if (0 <=? x) && (x <? 4 * n) then m (8 * (x / 4) + 3 - x) else m x.
Proof. intros N B. apply swap_fold; [apply to_disk_step_spec|exact N|exact B]. Qed.
Lemma from_disk_spec n m x : 0 <= n -> (forall x, 0 <= x < 4 * n -> is_byte (m x)) ->
  from_disk n m x = if (0 <=? x) && (x <? 4 * n) then m (8 * (x / 4) + 3 - x) else m x.
Proof. intros N B. apply swap_fold; [apply from_disk_step_spec|exact N|exact B]. Qed.
Lemma swap_range n x : 0 <= x < 4 * n -> 0 <= 8 * (x / 4) + 3 - x < 4 * n /\ (8 * (x / 4) + 3 - x) / 4 = x / 4.
Proof.
  intros H. pose proof (Z.div_mod x 4 ltac:(lia)). pose proof (Z.mod_pos_bound x 4 ltac:(lia)).
  split; [lia|]. symmetry. apply Z.div_unique with (3 - x mod 4); lia.
Qed.
Lemma disk_inverse n m x : 0 <= n -> (forall x, 0 <= x < 4 * n -> is_byte (m x)) -> from_disk n (to_disk n m) x = m x.
Proof.
  intros N B. rewrite from_disk_spec; [|exact N|].
  - destruct ((0 <=? x) && (x <? 4 * n)) eqn:E.
    + destruct (swap_range n x ltac:(lia)) as (R & Q). rewrite to_disk_spec by assumption.
      replace (_ && _) with true by lia. rewrite Q. f_equal. lia.
    + rewrite to_disk_spec by assumption. rewrite E. reflexivity.
  - intros y Y. rewrite to_disk_spec by assumption. replace (_ && _) with true by lia. apply B. apply swap_range. exact Y.
Qed.
(** the four bytes of a sample *)
Lemma word_byte n m i b : 0 <= n -> (forall x, 0 <= x < 4 * n -> is_byte (m x)) -> 0 <= i < n -> 0 <= b < 4 ->
  to_disk n m (4 * i + b) = m (4 * i + (3 - b)).
Proof.
  intros N B I J. rewrite to_disk_spec by assumption. replace (_ && _) with true by lia.
  replace ((4 * i + b) / 4) with i by (apply Z.div_unique with b; lia). f_equal. lia.
Qed.
Lemma word_read n m i : 0 <= n -> (forall x, 0 <= x < 4 * n -> is_byte (m x)) -> 0 <= i < n ->
  sample (from_disk n m) i = 16777216 * m (4 * i) + 65536 * m (4 * i + 1) + 256 * m (4 * i + 2) + m (4 * i + 3).
Proof.
  intros N B I. assert (W : forall b, 0 <= b < 4 -> from_disk n m (4 * i + b) = m (4 * i + (3 - b))).
  { intros b J. rewrite from_disk_spec by assumption. replace (_ && _) with true by lia.
    replace ((4 * i + b) / 4) with i by (apply Z.div_unique with b; lia). f_equal. lia. }
  unfold sample, le32. pose proof (W 0 ltac:(lia)) as W0. rewrite Z.add_0_r in W0. rewrite W0, !W by lia.
  change (3 - 0) with 3. change (3 - 1) with 2. change (3 - 2) with 1. change (3 - 3) with 0. rewrite Z.add_0_r. lia.
Qed.

(** ---- transfers ---- *)
Definition tvalid (nt : Z) (t : target) : Prop :=
  match t with
  | Range o n => 0 <= o /\ 0 <= n /\ o + n <= nt
  | Listed l => Forall (fun x => 0 <= x < nt) l
  end.
Definition tnodup (t : target) : Prop := match t with Range _ _ => True | Listed l => NoDup l end.
Lemma tcount_nonneg nt t : tvalid nt t -> 0 <= tcount t.
Proof. destruct t; cbn; lia. Qed.
Lemma tpos_range nt t i : tvalid nt t -> 0 <= i < tcount t -> 0 <= tpos t i < nt.
Proof.
  destruct t as [o n|l]; cbn; intros V I; [lia|]. rewrite Forall_forall in V. apply V, nth_In. lia.
Qed.
Lemma tpos_inj t i j : tnodup t -> 0 <= i < tcount t -> 0 <= j < tcount t -> tpos t i = tpos t j -> i = j.
Proof.
  destruct t as [o n|l]; cbn; intros N I J E; [lia|].
  rewrite NoDup_nth in N. specialize (N (Z.to_nat i) (Z.to_nat j) ltac:(lia) ltac:(lia) E). lia.
Qed.
Definition plo (pt : part) : Z := match pt with Samp => 240 | _ => 0 end.
Definition plen (pt : part) (ns : Z) : Z := match pt with Full => 240 + 4 * ns | Head => 240 | Samp => 4 * ns end.
Lemma plen_nonneg pt ns : 0 <= ns -> 0 <= plen pt ns. Proof. destruct pt; unfold plen; lia. Qed.
Lemma plo_plen pt ns : 0 <= ns -> 0 <= plo pt /\ plo pt + plen pt ns <= 240 + 4 * ns. Proof. destruct pt; unfold plen, plo; lia. Qed.
Lemma trace_at_mono ns i j : 0 <= ns -> i < j -> trace_at ns i + (240 + 4 * ns) <= trace_at ns j.
Proof.
  intros N H. unfold trace_at. assert ((i + 1) * (240 + 4 * ns) <= j * (240 + 4 * ns)) by (apply Z.mul_le_mono_nonneg_r; lia). lia.
Qed.
Lemma trace_at_ge ns i : 0 <= ns -> 0 <= i -> 3600 <= trace_at ns i.
Proof. intros N H. unfold trace_at. assert (0 <= i * (240 + 4 * ns)) by (apply Z.mul_nonneg_nonneg; lia). lia. Qed.
Lemma trace_at_inj ns i j x y : 0 <= ns -> 0 <= x < 240 + 4 * ns -> 0 <= y < 240 + 4 * ns ->
  trace_at ns i + x = trace_at ns j + y -> i = j /\ x = y.
Proof.
  intros N X Y E. destruct (Z.lt_trichotomy i j) as [H|[H|H]].
  - pose proof (trace_at_mono ns i j N H). lia.
  - subst. lia.
  - pose proof (trace_at_mono ns j i N H). lia.
Qed.

Lemma obj_single {S} (step : S -> Z -> Z -> S) maxSize sizes pt t ns nt s :
  2 * (240 + 4 * ns) <= maxSize -> fits nt ns -> tvalid nt t ->
  exists P, obj_io step maxSize sizes pt t ns s = Some (mpi_call step P (plen pt ns * tcount t) 0 s) /\
  forall i j, 0 <= i < tcount t -> 0 <= j < plen pt ns -> P (plen pt ns * i + j) = trace_at ns (tpos t i) + plo pt + j.
Proof.
  intros M F V. pose proof F as (N & NT & _ & W). destruct t as [o n|l]; cbn [tvalid tcount tpos] in *.
  - destruct V as (O & C & E). destruct pt; cbn [obj_io plen plo].
    + eexists. rewrite (DO_single step maxSize sizes o ns nt n 0 s) by (first [assumption|lia]).
      split; [rewrite (Z.mul_comm n); reflexivity|]. intros i j I J. cbv beta. unfold trace_at. lia.
    + eexists. rewrite (DOMD_single step maxSize sizes o ns nt n 0 s) by (first [assumption|lia]).
      split; [reflexivity|]. intros i j I J. rewrite viewpos_block by exact J. unfold trace_at. lia.
    + destruct (Z.eq_dec n 0) as [Z0|NZ].
      * eexists. unfold objDODF. rewrite strided_one.
        -- rewrite getDFSz_exact by lia. split; [reflexivity|]. intros; lia.
        -- rewrite getDOSz_exact by lia. lia.
        -- rewrite getDFSz_exact by lia. lia.
        -- lia.
      * eexists. rewrite (DODF_single step maxSize sizes o ns nt n 0 s) by (first [assumption|lia]).
        split; [reflexivity|]. intros i j I J. rewrite viewpos_block by exact J. unfold trace_at. lia.
  - rewrite Forall_forall in V.
    assert (NTH : forall i (g : Z -> Z), 0 <= i < Z.of_nat (length l) -> nth (Z.to_nat i) (map g l) 0 = g (nth (Z.to_nat i) l 0) /\ 0 <= nth (Z.to_nat i) l 0 < nt).
    { intros i g I. split; [|apply V, nth_In; lia]. rewrite (nth_indep _ 0 (g 0)) by (rewrite map_length; lia). apply map_nth. }
    destruct pt; cbn [obj_io plen plo].
    + eexists. unfold objDO_list. rewrite getDOSz_exact by lia. rewrite listio_one by lia. rewrite map_length. split; [reflexivity|].
      intros i j I J. rewrite listpos_block by lia. destruct (NTH i (fun o => getDOLoc o ns) I) as (-> & R).
      rewrite (getDOLoc_exact _ nt) by (first [assumption|lia]). unfold trace_at. lia.
    + eexists. unfold objDOMD_list. rewrite listio_one by (unfold getMDSz; lia). rewrite map_length. split; [reflexivity|].
      intros i j I J. unfold getMDSz. rewrite listpos_block by lia. destruct (NTH i (fun o => getDOLoc o ns) I) as (-> & R).
      rewrite (getDOLoc_exact _ nt) by (first [assumption|lia]). unfold trace_at. lia.
    + unfold objDODF_list. destruct (Z.eqb_spec ns 0) as [->|NZ].
      * exists (fun _ => 0). split; [reflexivity|]. intros; lia.
      * eexists. rewrite getDFSz_exact by lia. rewrite listio_one by lia. rewrite map_length. split; [reflexivity|].
        intros i j I J. rewrite listpos_block by lia. destruct (NTH i (fun o => getDODFLoc o ns) I) as (-> & R).
        rewrite (getDODFLoc_exact _ nt) by (first [assumption|lia]). unfold trace_at. lia.
Qed.

Lemma obj_read f maxSize sizes pt t ns nt m :
  2 * (240 + 4 * ns) <= maxSize -> fits nt ns -> tvalid nt t -> has_traces f nt ns ->
  exists m', obj_io (read_step f) maxSize sizes pt t ns m = Some m' /\
  (forall i j, 0 <= i < tcount t -> 0 <= j < plen pt ns -> m' (plen pt ns * i + j) = fbyte f (trace_at ns (tpos t i) + plo pt + j)) /\
  (forall a, a < 0 \/ plen pt ns * tcount t <= a -> m' a = m a).
Proof.
  intros M F V H. destruct (obj_single (read_step f) maxSize sizes pt t ns nt m M F V) as (P & E & PS). rewrite E.
  eexists. split; [reflexivity|]. pose proof F as (N & _). pose proof (plen_nonneg pt ns N) as L. pose proof (plo_plen pt ns N) as (L0 & L1). split.
  - intros i j I J. rewrite read_call_spec.
    assert (B : 0 <= plen pt ns * i + j < plen pt ns * tcount t).
    { assert (plen pt ns * (i + 1) <= plen pt ns * tcount t) by (apply Z.mul_le_mono_nonneg_l; lia).
      assert (0 <= plen pt ns * i) by (apply Z.mul_nonneg_nonneg; lia). lia. }
    replace (plen pt ns * i + j - 0) with (plen pt ns * i + j) by lia. rewrite PS by assumption.
    pose proof (tpos_range nt t i V I) as T. pose proof (trace_at_mono ns (tpos t i) nt N ltac:(lia)). unfold has_traces in H.
    replace (_ && _ && _) with true by lia. reflexivity.
  - intros a A. rewrite read_call_spec. replace ((0 <=? a) && (a <? 0 + plen pt ns * tcount t)) with false by lia. reflexivity.
Qed.
Lemma obj_write f maxSize sizes pt t ns nt m :
  2 * (240 + 4 * ns) <= maxSize -> fits nt ns -> tvalid nt t -> tnodup t ->
  exists f', obj_io (write_step m) maxSize sizes pt t ns f = Some f' /\
  (forall i j, 0 <= i < tcount t -> 0 <= j < plen pt ns ->
     fbyte f' (trace_at ns (tpos t i) + plo pt + j) = m (plen pt ns * i + j) /\ trace_at ns (tpos t i) + plo pt + j < fsize f') /\
  (forall q, (forall i j, 0 <= i < tcount t -> 0 <= j < plen pt ns -> q <> trace_at ns (tpos t i) + plo pt + j) -> fbyte f' q = fbyte f q) /\
  fsize f <= fsize f' /\ fsize f' <= Z.max (fsize f) (trace_at ns nt).
Proof.
  intros M F V D. destruct (obj_single (write_step m) maxSize sizes pt t ns nt f M F V) as (P & E & PS). rewrite E.
  eexists. split; [reflexivity|]. pose proof F as (N & _). pose proof (plen_nonneg pt ns N) as L. pose proof (plo_plen pt ns N) as (L0 & L1).
  pose proof (tcount_nonneg nt t V) as TN.
  assert (IDX : forall i j, 0 <= i < tcount t -> 0 <= j < plen pt ns -> 0 <= plen pt ns * i + j < plen pt ns * tcount t).
  { intros i j I J. assert (plen pt ns * (i + 1) <= plen pt ns * tcount t) by (apply Z.mul_le_mono_nonneg_l; lia).
    assert (0 <= plen pt ns * i) by (apply Z.mul_nonneg_nonneg; lia). lia. }
  destruct (write_call_size m P (plen pt ns * tcount t) 0 f) as (S1 & S2 & S3).
  split; [|split; [|split; [exact S1|]]].
  - intros i j I J. rewrite <- PS by assumption. split; [|apply S2, IDX; assumption].
    rewrite write_call_inside; [f_equal; lia|apply IDX; assumption|].
    intros i' I' EQ. destruct (split_index (tcount t) (plen pt ns) i' TN L ltac:(pose proof (IDX i j I J); lia)) as (_ & k & j' & K & J' & ->).
    rewrite !PS in EQ by assumption.
    destruct (trace_at_inj ns (tpos t k) (tpos t i) (plo pt + j') (plo pt + j) N ltac:(lia) ltac:(lia) ltac:(lia)) as (T & U).
    apply (tpos_inj t k i D K I) in T. subst k. lia.
  - intros q Q. apply write_call_outside. intros i' I' EQ.
    destruct (split_index (tcount t) (plen pt ns) i' TN L I') as (_ & k & j' & K & J' & ->).
    rewrite PS in EQ by assumption. apply (Q k j' K J'). lia.
  - apply S3; [lia|]. intros i' I'.
    destruct (split_index (tcount t) (plen pt ns) i' TN L I') as (_ & k & j' & K & J' & ->). rewrite PS by assumption.
    pose proof (tpos_range nt t k V K) as T. pose proof (trace_at_mono ns (tpos t k) nt N ltac:(lia)). lia.
Qed.

(** ---- copies between buffers ---- *)
Lemma copies_spec {A} (d s n : A -> Z) (src : mem) : forall (l : list A) m,
  (forall a b x, In a l -> In b l -> d a <= x < d a + n a -> d b <= x < d b + n b -> s a + (x - d a) = s b + (x - d b)) ->
  (forall a x, In a l -> d a <= x < d a + n a -> fold_left (fun m a => copy_bytes m (d a) src (s a) (n a)) l m x = src (s a + (x - d a))) /\
  (forall x, (forall a, In a l -> ~ (d a <= x < d a + n a)) -> fold_left (fun m a => copy_bytes m (d a) src (s a) (n a)) l m x = m x).
Proof.
  induction l as [|b l IH]; intros m C; [split; [intros ? ? []|reflexivity]|]. cbn [fold_left].
  destruct (IH (copy_bytes m (d b) src (s b) (n b))) as (I1 & I2).
  { intros. apply C; [right|right| |]; assumption. }
  split.
  - intros a x [<-|I] X; [|apply I1; assumption].
    destruct (List.existsb (fun a => (d a <=? x) && (x <? d a + n a)) l) eqn:EX.
    + apply existsb_exists in EX. destruct EX as (a & Ia & Xa). rewrite (I1 a x Ia ltac:(lia)). f_equal.
      apply C; [right; exact Ia|left; reflexivity|lia|exact X].
    + rewrite I2.
      * unfold copy_bytes. replace (_ && _) with true by lia. reflexivity.
      * intros a Ia Xa. assert (T : List.existsb (fun a => (d a <=? x) && (x <? d a + n a)) l = true).
        { apply existsb_exists. exists a. split; [exact Ia|lia]. } congruence.
  - intros x X. rewrite I2 by (intros; apply X; right; assumption). unfold copy_bytes.
    specialize (X b (or_introl eq_refl)). replace (_ && _) with false by lia. reflexivity.
Qed.
Lemma stride_same (D i j x : Z) (lo len : Z) : 0 <= lo -> lo + len <= D ->
  i * D + lo <= x < i * D + lo + len -> j * D + lo <= x < j * D + lo + len -> i = j.
Proof.
  intros L0 L1 X Y. destruct (Z.lt_trichotomy i j) as [H|[H|H]]; [exfalso|exact H|exfalso].
  - assert ((i + 1) * D <= j * D) by (apply Z.mul_le_mono_nonneg_r; lia). lia.
  - assert ((j + 1) * D <= i * D) by (apply Z.mul_le_mono_nonneg_r; lia). lia.
Qed.
Lemma put_samples_spec ns sz tb buf : 0 <= ns -> 240 + 4 * ns < two64 ->
  (forall i j, 0 <= i < sz -> 0 <= j < 4 * ns -> put_samples ns sz tb buf ((240 + 4 * ns) * i + 240 + j) = tb (4 * ns * i + j)) /\
  (forall i j, 0 <= i < sz -> 0 <= j < 240 -> put_samples ns sz tb buf ((240 + 4 * ns) * i + j) = buf ((240 + 4 * ns) * i + j)).
Proof.
  intros N W. unfold put_samples. rewrite getDOSz_exact, getDFSz_exact by lia. unfold getMDSz.
  destruct (copies_spec (fun i => i * (240 + 4 * ns) + 240) (fun i => i * (4 * ns)) (fun _ => 4 * ns) tb (zr sz) buf) as (A & B).
  { intros a b x _ _ X Y. rewrite (stride_same (240 + 4 * ns) a b x 240 (4 * ns)) by lia. reflexivity. }
  split; intros i j I J.
  - rewrite (A i) by (first [apply in_zr; exact I|lia]). f_equal. lia.
  - apply B. intros a Ia X. apply in_zr in Ia. destruct (Z.lt_trichotomy a i) as [H|[H|H]]; [|lia|].
    + assert ((a + 1) * (240 + 4 * ns) <= i * (240 + 4 * ns)) by (apply Z.mul_le_mono_nonneg_r; lia). lia.
    + assert ((i + 1) * (240 + 4 * ns) <= a * (240 + 4 * ns)) by (apply Z.mul_le_mono_nonneg_r; lia). lia.
Qed.
Lemma take_samples_spec ns sz tb buf : 0 <= ns -> 240 + 4 * ns < two64 -> 0 <= sz ->
  (forall i j, 0 <= i < sz -> 0 <= j < 4 * ns -> take_samples ns sz buf tb (4 * ns * i + j) = buf ((240 + 4 * ns) * i + 240 + j)) /\
  (forall x, x < 0 \/ 4 * ns * sz <= x -> take_samples ns sz buf tb x = tb x).
Proof.
  intros N W SZ. unfold take_samples. rewrite getDOSz_exact, getDFSz_exact by lia. unfold getMDSz.
  set (len := fun i : Z => (i + 1) * (240 + 4 * ns) - (i * (240 + 4 * ns) + 240)).
  assert (LN : forall i, len i = 4 * ns) by (intros; unfold len; lia).
  destruct (copies_spec (fun i => i * (4 * ns)) (fun i => i * (240 + 4 * ns) + 240) len buf (zr sz) tb) as (A & B).
  { intros a b x _ _ X Y. rewrite LN in X, Y. rewrite (stride_same (4 * ns) a b x 0 (4 * ns)) by lia. reflexivity. }
  split.
  - intros i j I J. rewrite (A i) by (first [apply in_zr; exact I|rewrite LN; lia]). f_equal. lia.
  - intros x X. apply B. intros a Ia Y. apply in_zr in Ia. rewrite LN in Y.
    assert (0 <= a * (4 * ns)) by (apply Z.mul_nonneg_nonneg; lia).
    assert ((a + 1) * (4 * ns) <= sz * (4 * ns)) by (apply Z.mul_le_mono_nonneg_r; lia). lia.
Qed.
