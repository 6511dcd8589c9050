(** What a history of writes leaves in the file. *)
From Verif Require Import Base NumEncModel NumEncSpec NumEncProofs CharEncModel LayoutModel LayoutProofs DataIOModel DataIOProofs
  RuleModel DoubleModel ParamModel ParamProofs FileSpec FileModel FileProofs WriteSpec.

Lemma index_of_some i : forall l j, index_of i l = Some j -> 0 <= j < Z.of_nat (length l) /\ nth (Z.to_nat j) l 0 = i.
Proof.
  induction l as [|x l IH]; intros j H; [discriminate|]. cbn [index_of] in H. destruct (Z.eqb_spec x i) as [E|E].
  - injection H as <-. cbn. lia.
  - destruct (index_of i l) as [k|]; [|discriminate]. assert (j = 1 + k) as -> by (cbn [option_map] in H; congruence). destruct (IH k eq_refl) as (A & B).
    cbn [length]. split; [lia|]. replace (Z.to_nat (1 + k)) with (S (Z.to_nat k)) by lia. exact B.
Qed.
Lemma index_of_none i : forall l, index_of i l = None -> ~ In i l.
Proof.
  induction l as [|x l IH]; intros H; [intros []|]. cbn [index_of] in H. destruct (Z.eqb_spec x i) as [E|E]; [discriminate|].
  destruct (index_of i l); [discriminate|]. intros [A|A]; [congruence|]. exact (IH eq_refl A).
Qed.
Lemma find_pos_some t i j : find_pos t i = Some j -> 0 <= j < tcount t /\ tpos t j = i.
Proof.
  destruct t as [o n|l]; cbn [find_pos tcount tpos]; [|apply index_of_some].
  destruct (_ && _) eqn:E; [|discriminate]. intros H; injection H as <-. lia.
Qed.
Lemma find_pos_none t i : find_pos t i = None -> forall j, 0 <= j < tcount t -> tpos t j <> i.
Proof.
  destruct t as [o n|l]; cbn [find_pos tcount tpos].
  - destruct (_ && _) eqn:E; [discriminate|]. intros _ j J. lia.
  - intros H j J E. apply (index_of_none i l H). rewrite <- E. apply nth_In. lia.
Qed.
Lemma in_file_valid nt t : in_file nt t -> tvalid nt t /\ tnodup t.
Proof. destruct t; cbn; tauto. Qed.

Lemma stride_exact trc ns : 0 <= ns -> 240 + 4 * ns < two64 ->
  u64 (match trc : option mem with None => getMDSz | Some _ => getDOSz ns end - getMDSz) = match trc with None => 0 | Some _ => 4 * ns end.
Proof.
  intros N W. destruct trc; [|reflexivity]. rewrite getDOSz_exact by assumption. unfold getMDSz.
  replace (240 + 4 * ns - 240) with (4 * ns) by lia. apply Z.mod_small. lia.
Qed.

(** One call. *)
Lemma write_spec maxSize sizes ns nt t trc prm skip f f' trc' :
  2 * (240 + 4 * ns) <= maxSize -> fits nt ns -> tvalid nt t -> tnodup t -> (forall m, trc = Some m -> mem_bytes m) ->
  writeTraceT maxSize sizes ns t trc prm skip f = Some (f', trc') ->
  (forall m i k, trc = Some m -> 0 <= i < tcount t -> 0 <= k < ns ->
     disk_sample f' ns (tpos t i) k = sample m (i * ns + k) /\ trace_at ns (tpos t i) + 240 + 4 * ns <= fsize f') /\
  (forall i j, (trc = None \/ forall k, 0 <= k < tcount t -> tpos t k <> i) -> 0 <= j < 4 * ns ->
     fbyte f' (trace_at ns i + 240 + j) = fbyte f (trace_at ns i + 240 + j)) /\
  (forall p, prm = Some p -> exists buf, insertParam (tcount t) p (fun _ => 0) (match trc with None => 0 | Some _ => 4 * ns end) skip = Some buf /\
     forall i x, 0 <= i < tcount t -> 0 <= x < 240 ->
       disk_header f' ns (tpos t i) x = buf ((240 + match trc with None => 0 | Some _ => 4 * ns end) * i + x) /\ trace_at ns (tpos t i) + 240 <= fsize f') /\
  (forall i x, (prm = None \/ forall k, 0 <= k < tcount t -> tpos t k <> i) -> 0 <= x < 240 -> disk_header f' ns i x = disk_header f ns i x) /\
  (forall q, q < 3600 -> fbyte f' q = fbyte f q) /\ fsize f <= fsize f' /\ fsize f' <= Z.max (fsize f) (trace_at ns nt) /\
  (forall m, trc = Some m -> exists m', trc' = Some m' /\ forall a, m' a = m a) /\ (trc = None -> trc' = None) /\
  (forall m i j, trc = Some m -> 0 <= i < tcount t -> 0 <= j < 4 * ns -> is_byte (fbyte f' (trace_at ns (tpos t i) + 240 + j))).
Proof.
  intros M F V D B H. pose proof F as (N & _ & _ & W). pose proof (tcount_nonneg nt t V) as TN.
  unfold writeTraceT in H. rewrite stride_exact in H by assumption.
  assert (NS0 : 0 <= ns * tcount t) by (apply Z.mul_nonneg_nonneg; lia).
  assert (LOW : forall i, 0 <= i < tcount t -> 3600 <= trace_at ns (tpos t i)).
  { intros i I. apply trace_at_ge; [lia|]. apply (tpos_range nt t i V I). }
  assert (SMP : forall m i k, mem_bytes m -> 0 <= i < tcount t -> 0 <= k < ns ->
     (forall j, 0 <= j < 4 * ns -> fbyte f' (trace_at ns (tpos t i) + 240 + j) = to_disk (ns * tcount t) m (4 * ns * i + j)) ->
     disk_sample f' ns (tpos t i) k = sample m (i * ns + k)).
  { intros m i k MB I K A. unfold disk_sample. cbv zeta.
    assert (IK : 0 <= i * ns + k < ns * tcount t).
    { assert ((i + 1) * ns <= tcount t * ns) by (apply Z.mul_le_mono_nonneg_r; lia).
      assert (0 <= i * ns) by (apply Z.mul_nonneg_nonneg; lia). lia. }
    assert (X : forall b, 0 <= b < 4 -> fbyte f' (trace_at ns (tpos t i) + 240 + 4 * k + b) = m (4 * (i * ns + k) + (3 - b))).
    { intros b Hb. replace (trace_at ns (tpos t i) + 240 + 4 * k + b) with (trace_at ns (tpos t i) + 240 + (4 * k + b)) by lia.
      rewrite A by lia. replace (4 * ns * i + (4 * k + b)) with (4 * (i * ns + k) + b) by lia.
      apply word_byte; [exact NS0|intros; apply MB|exact IK|exact Hb]. }
    pose proof (X 0 ltac:(lia)) as X0. rewrite Z.add_0_r in X0. rewrite X0, !X by lia.
    change (3 - 0) with 3. change (3 - 1) with 2. change (3 - 2) with 1. change (3 - 3) with 0. rewrite Z.add_0_r. unfold sample, le32. lia. }
  assert (BYT : forall m x, mem_bytes m -> is_byte (to_disk (ns * tcount t) m x)).
  { intros m x MB. rewrite to_disk_spec by (first [exact NS0|intros; apply MB]). destruct (_ && _); apply MB. }
  destruct prm as [p|].
  - destruct trc as [m|]; cbn [option_map obind] in H.
    + (* headers and samples *)
      destruct (insertParam _ _ _ _ _) as [buf|] eqn:EI in H; [|discriminate]. cbn [obind] in H.
      destruct (obj_write f maxSize sizes Full t ns nt (put_samples ns (tcount t) (to_disk (ns * tcount t) m) buf) M F V D) as (f1 & E1 & W1 & W2 & W3 & W4).
      rewrite E1 in H. cbn [obind] in H. injection H as <- <-. cbn [plo plen] in *.
      destruct (put_samples_spec ns (tcount t) (to_disk (ns * tcount t) m) buf N W) as (P1 & P2).
      split; [|split; [|split; [|split; [|split; [|split; [exact W3|split; [exact W4|split; [|split; [discriminate|]]]]]]]]].
      * intros m0 i k E I K. injection E as <-. split.
        -- apply SMP; try assumption; [apply B; reflexivity|]. intros j J. rewrite <- P1 by assumption.
           destruct (W1 i (240 + j) I ltac:(lia)) as (A & _). rewrite Z.add_0_r in A. rewrite Z.add_assoc in A. rewrite A. f_equal. lia.
        -- destruct (W1 i (240 + 4 * ns - 1) I ltac:(lia)) as (_ & A). lia.
      * intros i j [E|E] J; [discriminate|]. apply W2. intros i' j' I' J' Q. rewrite Z.add_0_r in Q.
        destruct (trace_at_inj ns i (tpos t i') (240 + j) j' N ltac:(lia) ltac:(lia) ltac:(lia)) as (T & _). apply (E i' I'). congruence.
      * intros p0 E. injection E as <-. exists buf. split; [exact EI|]. intros i x I X. unfold disk_header.
        destruct (W1 i x I ltac:(lia)) as (A & _). rewrite Z.add_0_r in A. rewrite A, P2 by assumption. split; [reflexivity|].
        destruct (W1 i 239 I ltac:(lia)) as (_ & A'). lia.
      * intros i x [E|E] X; [discriminate|]. apply W2. intros i' j' I' J' Q. rewrite Z.add_0_r in Q.
        destruct (trace_at_inj ns i (tpos t i') x j' N ltac:(lia) ltac:(lia) ltac:(lia)) as (T & _). apply (E i' I'). congruence.
      * intros q Q. apply W2. intros i' j' I' J'. specialize (LOW i' I'). lia.
      * intros m0 E. injection E as <-. eexists. split; [reflexivity|]. intros a. apply disk_inverse; [exact NS0|]. intros; apply B; reflexivity.
      * intros m0 i j E I J. injection E as <-. destruct (W1 i (240 + j) I ltac:(lia)) as (A & _). rewrite Z.add_0_r, Z.add_assoc in A. rewrite A.
        rewrite Z.add_assoc, P1 by assumption. apply BYT, B; reflexivity.
    + (* headers only *)
      destruct (insertParam _ _ _ _ _) as [buf|] eqn:EI in H; [|discriminate]. cbn [obind] in H.
      destruct (obj_write f maxSize sizes Head t ns nt buf M F V D) as (f1 & E1 & W1 & W2 & W3 & W4).
      rewrite E1 in H. cbn [obind] in H. injection H as <- <-. cbn [plo plen] in *.
      split; [|split; [|split; [|split; [|split; [|split; [exact W3|split; [exact W4|split; [|split; [reflexivity|discriminate]]]]]]]]].
      * discriminate.
      * intros i j _ J. apply W2. intros i' j' I' J' Q. rewrite Z.add_0_r in Q.
        destruct (trace_at_inj ns i (tpos t i') (240 + j) j' N ltac:(lia) ltac:(lia) ltac:(lia)) as (_ & T). lia.
      * intros p0 E. injection E as <-. exists buf. split; [exact EI|]. intros i x I X. unfold disk_header.
        destruct (W1 i x I X) as (A & _). rewrite Z.add_0_r in A. rewrite A. split; [f_equal; lia|].
        destruct (W1 i 239 I ltac:(lia)) as (_ & A'). lia.
      * intros i x [E|E] X; [discriminate|]. apply W2. intros i' j' I' J' Q. rewrite Z.add_0_r in Q.
        destruct (trace_at_inj ns i (tpos t i') x j' N ltac:(lia) ltac:(lia) ltac:(lia)) as (T & _). apply (E i' I'). congruence.
      * intros q Q. apply W2. intros i' j' I' J'. specialize (LOW i' I'). lia.
      * discriminate.
  - destruct trc as [m|]; cbn [option_map obind] in H; [|discriminate].
    destruct (obj_write f maxSize sizes Samp t ns nt (to_disk (ns * tcount t) m) M F V D) as (f1 & E1 & W1 & W2 & W3 & W4).
    rewrite E1 in H. cbn [obind] in H. injection H as <- <-. cbn [plo plen] in *.
    split; [|split; [|split; [|split; [|split; [|split; [exact W3|split; [exact W4|split; [|split; [discriminate|]]]]]]]]].
    + intros m0 i k E I K. injection E as <-. split.
      * apply SMP; try assumption; [apply B; reflexivity|]. intros j J. destruct (W1 i j I J) as (A & _). exact A.
      * destruct (W1 i (4 * ns - 1) I ltac:(lia)) as (_ & A). lia.
    + intros i j [E|E] J; [discriminate|]. apply W2. intros i' j' I' J' Q.
      destruct (trace_at_inj ns i (tpos t i') (240 + j) (240 + j') N ltac:(lia) ltac:(lia) ltac:(lia)) as (T & _). apply (E i' I'). congruence.
    + discriminate.
    + intros i x _ X. apply W2. intros i' j' I' J' Q.
      destruct (trace_at_inj ns i (tpos t i') x (240 + j') N ltac:(lia) ltac:(lia) ltac:(lia)) as (_ & T). lia.
    + intros q Q. apply W2. intros i' j' I' J'. specialize (LOW i' I'). lia.
    + intros m0 E. injection E as <-. eexists. split; [reflexivity|]. intros a. apply disk_inverse; [exact NS0|]. intros; apply B; reflexivity.
    + intros m0 i j E I J. injection E as <-. destruct (W1 i j I J) as (A & _). rewrite A. apply BYT, B; reflexivity.
Qed.

(** ---- histories ---- *)
Lemma run_ind maxSize nt ns (Q : history -> file -> Prop)
  (STEP : forall d r o f f', op_ok nt ns (w_ns (rank_state d r)) o -> Q d f -> wfile maxSize o (w_ns (rank_state d r)) f = Some f' -> Q (d ++ [(r, o)]) f') :
  forall h d f f', history_ok nt ns (d ++ h) -> Q d f -> run_from maxSize d h f = Some f' -> Q (d ++ h) f'.
Proof.
  induction h as [|[r o] h IH]; intros d f f' OK Q0 H; cbn [run_from] in H.
  - injection H as <-. rewrite app_nil_r. exact Q0.
  - destruct (wfile _ _ _ _) as [f1|] eqn:E; [|discriminate]. cbn [obind] in H.
    replace (d ++ (r, o) :: h) with ((d ++ [(r, o)]) ++ h) in * by (rewrite <- app_assoc; reflexivity).
    apply (IH _ f1); [exact OK| |exact H]. apply (STEP d r o f); [|exact Q0|exact E].
    apply (OK d r o h). rewrite <- app_assoc. reflexivity.
Qed.
Lemma last_snoc {A} (g : wop -> option A) h x :
  fold_left (fun acc (x : nat * wop) => match g (snd x) with Some s => Some s | None => acc end) (h ++ [x]) None =
  match g (snd x) with Some s => Some s | None => fold_left (fun acc (x : nat * wop) => match g (snd x) with Some s => Some s | None => acc end) h None end.
Proof. rewrite fold_left_app. reflexivity. Qed.
Lemma last_samples_snoc ns h r o i : last_samples ns (h ++ [(r, o)]) i = match written ns o i with Some s => Some s | None => last_samples ns h i end.
Proof. unfold last_samples. apply (last_snoc (fun o => written ns o i)). Qed.

(** The content of the file after a history. *)
Definition content (ns nt : Z) (f0 : file) (h : history) (f : file) : Prop :=
  (forall i s, last_samples ns h i = Some s -> (forall k, 0 <= k < ns -> disk_sample f ns i k = s k) /\ (0 < ns -> trace_at ns i + 240 + 4 * ns <= fsize f)) /\
  (forall i, last_samples ns h i = None -> forall j, 0 <= j < 4 * ns -> fbyte f (trace_at ns i + 240 + j) = fbyte f0 (trace_at ns i + 240 + j)) /\
  (forall q, q < 3600 -> fbyte f q = fbyte f0 q) /\ fsize f0 <= fsize f /\ fsize f <= Z.max (fsize f0) (trace_at ns nt) /\
  (file_bytes f0 -> forall i j, 0 <= j < 4 * ns -> is_byte (fbyte f (trace_at ns i + 240 + j))).
Lemma disk_sample_ext f f' ns i k : (forall j, 0 <= j < 4 * ns -> fbyte f' (trace_at ns i + 240 + j) = fbyte f (trace_at ns i + 240 + j)) ->
  0 <= k < ns -> disk_sample f' ns i k = disk_sample f ns i k.
Proof.
  intros E K. unfold disk_sample. cbv zeta.
  assert (X : forall b, 0 <= b < 4 -> fbyte f' (trace_at ns i + 240 + 4 * k + b) = fbyte f (trace_at ns i + 240 + 4 * k + b)).
  { intros b Hb. replace (trace_at ns i + 240 + 4 * k + b) with (trace_at ns i + 240 + (4 * k + b)) by lia. apply E. lia. }
  pose proof (X 0 ltac:(lia)) as X0. rewrite Z.add_0_r in X0. rewrite X0, !X by lia. reflexivity.
Qed.
Lemma step_content maxSize nt ns f0 d r o f f' :
  2 * (240 + 4 * ns) <= maxSize -> fits nt ns ->
  op_ok nt ns (w_ns (rank_state d r)) o -> content ns nt f0 d f -> wfile maxSize o (w_ns (rank_state d r)) f = Some f' ->
  content ns nt f0 (d ++ [(r, o)]) f'.
Proof.
  intros M F OK (C1 & C2 & C3 & C4 & C5 & C6) H.
  assert (TRIV : f' = f -> (forall i, written ns o i = None) -> content ns nt f0 (d ++ [(r, o)]) f').
  { intros -> WN. unfold content. split; [|split; [|split; [exact C3|split; [exact C4|split; [exact C5|exact C6]]]]].
    - intros i s. rewrite last_samples_snoc, WN. apply C1.
    - intros i. rewrite last_samples_snoc, WN. apply C2. }
  destruct o as [n|n|x|s|sizes t trc prm skip]; cbn [wfile] in H; try (injection H as <-; apply TRIV; [reflexivity|intros; reflexivity]).
  destruct OK as (EN & V & B). rewrite EN in H. apply in_file_valid in V. destruct V as (V & D).
  destruct (writeTraceT _ _ _ _ _ _ _ _) as [[f1 trc']|] eqn:E; [|discriminate]. cbn in H. injection H as <-.
  destruct (write_spec _ _ _ _ _ _ _ _ _ _ _ M F V D B E) as (W1 & W2 & _ & _ & W5 & W6 & W7 & _ & _ & W8).
  unfold content. repeat apply conj.
  - intros i s. rewrite last_samples_snoc. destruct (written ns _ i) as [s'|] eqn:WR.
    + intros H; injection H as <-. cbn [written] in WR. destruct trc as [m|]; [|discriminate].
      destruct (find_pos t i) as [j|] eqn:FP; [|discriminate]. injection WR as <-. apply find_pos_some in FP. destruct FP as (J & <-).
      split; [intros k K; apply W1; [reflexivity|exact J|exact K]|]. intros NP. apply (W1 m j 0 eq_refl J). lia.
    + intros L. destruct (C1 i s L) as (A & A').
      assert (U : trc = None \/ forall k, 0 <= k < tcount t -> tpos t k <> i).
      { cbn [written] in WR. destruct trc as [m|]; [right|left; reflexivity]. apply find_pos_none. destruct (find_pos t i); [discriminate|reflexivity]. }
      split; [|intros NP; specialize (A' NP); lia]. intros k K. rewrite <- (A k K). apply disk_sample_ext; [|exact K]. intros j J. apply W2; assumption.
  - intros i. rewrite last_samples_snoc. destruct (written ns _ i) as [s'|] eqn:WR; [discriminate|]. intros L j J.
    rewrite <- (C2 i L j J). apply W2; [|exact J]. cbn [written] in WR. destruct trc as [m|]; [right|left; reflexivity].
    apply find_pos_none. destruct (find_pos t i); [discriminate|reflexivity].
  - intros q Q. rewrite W5 by exact Q. apply C3, Q.
  - lia.
  - lia.
  - intros FB i j J. destruct (written ns (WTrace sizes t trc prm skip) i) as [s'|] eqn:WR.
    + cbn [written] in WR. destruct trc as [m|]; [|discriminate]. destruct (find_pos t i) as [j'|] eqn:FP; [|discriminate].
      apply find_pos_some in FP. destruct FP as (J' & <-). apply (W8 m); [reflexivity|exact J'|exact J].
    + rewrite W2; [apply C6; assumption| |exact J]. cbn [written] in WR. destruct trc as [m|]; [right|left; reflexivity].
      apply find_pos_none. destruct (find_pos t i); [discriminate|reflexivity].
Qed.
Lemma run_content maxSize nt ns h f0 f :
  2 * (240 + 4 * ns) <= maxSize -> fits nt ns -> history_ok nt ns h -> run maxSize h f0 = Some f -> content ns nt f0 h f.
Proof.
  intros M F OK H. apply (run_ind maxSize nt ns (content ns nt f0)) with (h := h) (d := []) (f := f0); try assumption.
  - intros. eapply step_content; eassumption.
  - unfold content. cbn [last_samples fold_left]. split; [discriminate|]. split; [reflexivity|]. split; [reflexivity|]. split; [lia|]. split; [lia|]. intros FB i j J. apply FB.
Qed.
(** The headers after a history: those of some call of insertParam. *)
Definition md_ok (o : wop) : Prop :=
  match o with
  | WTrace _ t _ (Some p) skip => wf_param p /\ full_rule (p_rule p) /\ fields_ok (p_rule p) /\ 0 <= skip /\ skip + tcount t <= p_sz p
  | _ => True
  end.
Definition headers (ns : Z) (h : history) (f : file) : Prop :=
  forall i p tr, last_md h i = Some (p, tr) -> (forall x, In x h -> md_ok (snd x)) ->
  exists stride sz sk j buf, 0 <= stride /\ 0 <= j < sz /\ 0 <= sk /\ sk + sz <= p_sz p /\ j + sk = tr /\
    wf_param p /\ full_rule (p_rule p) /\ fields_ok (p_rule p) /\
    insertParam sz p (fun _ => 0) stride sk = Some buf /\
    (forall x, 0 <= x < 240 -> disk_header f ns i x = buf ((240 + stride) * j + x)) /\ trace_at ns i + 240 <= fsize f.
Lemma step_headers maxSize nt ns d r o f f' :
  2 * (240 + 4 * ns) <= maxSize -> fits nt ns ->
  op_ok nt ns (w_ns (rank_state d r)) o -> headers ns d f -> wfile maxSize o (w_ns (rank_state d r)) f = Some f' ->
  headers ns (d ++ [(r, o)]) f'.
Proof.
  intros M F OK H0 H i p tr L MD. unfold last_md in L. rewrite (last_snoc (fun o => written_md o i)) in L. cbn [snd] in L.
  assert (MD0 : forall x, In x d -> md_ok (snd x)) by (intros x X; apply MD, in_or_app; left; exact X).
  assert (MDo : md_ok o) by (apply (MD (r, o)), in_or_app; right; left; reflexivity).
  destruct o as [n|n|x|s|sizes t trc prm skip]; cbn [wfile written_md] in *; try (injection H as <-; apply H0; assumption).
  destruct OK as (EN & V & B). rewrite EN in H. apply in_file_valid in V. destruct V as (V & D).
  destruct (writeTraceT _ _ _ _ _ _ _ _) as [[f1 trc']|] eqn:E; [|discriminate]. cbn in H. injection H as <-.
  destruct (write_spec _ _ _ _ _ _ _ _ _ _ _ M F V D B E) as (_ & _ & W3 & W4 & _ & W6 & _).
  destruct prm as [q|].
  - destruct (find_pos t i) as [j|] eqn:FP; cbn [option_map] in L.
    + injection L as <- <-. apply find_pos_some in FP. destruct FP as (J & <-). destruct (W3 q eq_refl) as (buf & EI & A).
      destruct MDo as (M1 & M2 & M3 & M4 & M5). pose proof F as (N & _).
      exists (match trc with None => 0 | Some _ => 4 * ns end), (tcount t), skip, j, buf.
      split; [destruct trc; lia|]. split; [exact J|]. split; [exact M4|]. split; [exact M5|]. split; [reflexivity|]. repeat (split; [assumption|]).
      split; [intros x X; apply A; assumption|apply (A j 0 J); lia].
    + destruct (H0 i p tr L MD0) as (st & sz & sk & j & buf & Q). exists st, sz, sk, j, buf. decompose [and] Q. clear Q. repeat (split; [first [assumption|lia]|]).
      split; [|lia]. intros x X. rewrite W4; [auto| |exact X]. right. apply find_pos_none. exact FP.
  - destruct (H0 i p tr L MD0) as (st & sz & sk & j & buf & Q). exists st, sz, sk, j, buf. decompose [and] Q. clear Q. repeat (split; [first [assumption|lia]|]).
    split; [|lia]. intros x X. rewrite W4; [auto| |exact X]. left. reflexivity.
Qed.
Lemma run_headers maxSize nt ns h f0 f :
  2 * (240 + 4 * ns) <= maxSize -> fits nt ns -> history_ok nt ns h -> run maxSize h f0 = Some f -> headers ns h f.
Proof.
  intros M F OK H. apply (run_ind maxSize nt ns (headers ns)) with (h := h) (d := []) (f := f0); try assumption.
  - intros. eapply step_headers; eassumption.
  - intros i p tr L. discriminate.
Qed.
(** Histories split. *)
Lemma run_app maxSize : forall h1 h2 d f, run_from maxSize d (h1 ++ h2) f = obind (run_from maxSize d h1 f) (run_from maxSize (d ++ h1) h2).
Proof.
  induction h1 as [|[r o] h1 IH]; intros h2 d f; cbn [run_from app].
  - cbn [obind]. rewrite app_nil_r. reflexivity.
  - destruct (wfile _ _ _ _) as [f1|]; [|reflexivity]. cbn [obind]. rewrite IH, <- app_assoc. reflexivity.
Qed.
Lemma rank_state_snoc h r o r' : rank_state (h ++ [(r, o)]) r' = if Nat.eqb r r' then wlocal o (rank_state h r') else rank_state h r'.
Proof.
  unfold rank_state, rank_ops. rewrite filter_app, map_app, fold_left_app. cbn [filter fst]. destruct (Nat.eqb r r'); reflexivity.
Qed.

(** ---- the writers' own state ---- *)
Definition local (ops : list wop) (w : wstate) : wstate := fold_left (fun w o => wlocal o w) ops w.
Lemma local_app a b w : local (a ++ b) w = local b (local a w).
Proof. apply fold_left_app. Qed.
Lemma writeHO_stays ops : forall w, w_writeHO w = true -> w_writeHO (local ops w) = true.
Proof.
  induction ops as [|o ops IH]; intros w H; [exact H|]. cbn [local fold_left]. apply IH.
  destruct o; cbn [wlocal]; repeat match goal with |- context [if ?b then _ else _] => destruct b end; cbn [w_writeHO]; unfold fl; try exact H;
  repeat match goal with |- context [if ?b then _ else _] => destruct b end; (reflexivity || exact H).
Qed.
Lemma err_stays ops : forall w, w_err w = true -> w_err (local ops w) = true.
Proof.
  induction ops as [|o ops IH]; intros w H; [exact H|]. cbn [local fold_left]. apply IH.
  destruct o; cbn [wlocal]; repeat match goal with |- context [if ?b then _ else _] => destruct b end; cbn [w_err]; try reflexivity; try exact H.
  rewrite H. reflexivity.
Qed.
Lemma zmax_app a b : zmax (a ++ b) = Z.max (zmax a) (zmax b).
Proof.
  unfold zmax. pose proof (zmax_nonneg b) as B. unfold zmax in B. induction a as [|x a IH]; cbn [app fold_right]; [lia|]. rewrite IH. lia.
Qed.
Lemma u64_small x : 0 <= x < two64 -> u64 x = x.
Proof. apply Z.mod_small. Qed.
(** After a phase without announcements. *)
Definition write_fine (nt : Z) (o : wop) : Prop :=
  match o with
  | WTrace _ (Range o n) _ _ _ => 0 <= o /\ 0 <= n /\ o + n <= nt
  | WTrace _ (Listed l) _ _ _ => Forall (fun x => 0 <= x < nt) l /\ Forall (fun x => x <= last l 0) l
  | _ => True
  end.
Lemma writes_nt nt b : nt < two64 -> (forall o, In o b -> ~ is_nt o /\ write_fine nt o) -> forall w, 0 <= w_nt w ->
  w_nt (local b w) = Z.max (w_nt w) (zmax (map write_end b)) /\
  (w_stalent (local b w) = true <-> (w_stalent w = true \/ exists o, In o b /\ writes o)).
Proof.
  intros NT. induction b as [|o b IH]; intros H w W0.
  - cbn. split; [lia|]. split; [auto|]. intros [A|(o & [] & _)]. exact A.
  - cbn [local fold_left]. destruct (H o (or_introl eq_refl)) as (NN & FINE).
    assert (S : w_nt (wlocal o w) = Z.max (w_nt w) (write_end o) /\ 0 <= write_end o /\ (w_stalent (wlocal o w) = true <-> (w_stalent w = true \/ writes o))).
    { destruct o as [n|n|x|s|sizes t trc prm skip].
      - cbn [wlocal]. destruct (32767 <? n); cbn; repeat split; try lia; intros [A|[]]; exact A.
      - destruct (NN Logic.I).
      - cbn [wlocal]. destruct (disnormal x); cbn; repeat split; try lia; intros [A|[]]; exact A.
      - cbn [wlocal]. destruct (text_eqb _ _); cbn; repeat split; try lia; intros [A|[]]; exact A.
      - cbn [wlocal w_nt w_stalent writes]. destruct t as [off n|l]; cbn [write_end write_fine] in *.
        + rewrite u64_small by lia. repeat split; try lia; auto.
        + destruct FINE as (F1 & F2). destruct l as [|x l]; [cbn; repeat split; try lia; auto|].
          set (L := x :: l) in *. assert (IN : In (last L 0) L).
          { unfold L. clear. revert x. induction l as [|y l IH]; intros x; [left; reflexivity|]. right. apply (IH y). }
          rewrite Forall_forall in F1, F2. pose proof (F1 _ IN) as R.
          assert (E : zmax (map (Z.add 1) L) = last L 0 + 1).
          { apply Z.le_antisymm.
            - destruct (zmax_witness (map (Z.add 1) L)) as [E|E]; [lia|]. apply in_map_iff in E. destruct E as (y & E & Y). specialize (F2 y Y). lia.
            - apply zmax_in. apply in_map_iff. exists (last L 0). split; [lia|exact IN]. }
          rewrite E, u64_small by lia. repeat split; try lia; auto. }
    destruct S as (S1 & S2 & S3). destruct (IH ltac:(intros o' I; apply H; right; exact I) (wlocal o w) ltac:(rewrite S1; lia)) as (I1 & I2).
    unfold local in I1, I2. rewrite I1, S1. cbn [map zmax fold_right]. split; [unfold zmax; lia|].
    rewrite I2, S3. split.
    + intros [[A|A]|(o' & I & A)]; [left; exact A|right; exists o; split; [left; reflexivity|exact A]|right; exists o'; split; [right; exact I|exact A]].
    + intros [A|(o' & [<-|I] & A)]; [left; left; exact A|left; right; exact A|right; exists o'; auto].
Qed.
(** A phase without writes: the number of traces is the last announcement. *)
Lemma announce_nt a : (forall o, In o a -> ~ writes o) -> forall w, w_stalent w = false ->
  w_nt (local a w) = fold_left (fun x o => match o with WNt n => n | _ => x end) a (w_nt w) /\ w_stalent (local a w) = false.
Proof.
  induction a as [|o a IH]; intros H w S; [auto|]. cbn [local fold_left].
  assert (X : w_nt (wlocal o w) = match o with WNt n => n | _ => w_nt w end /\ w_stalent (wlocal o w) = false).
  { specialize (H o (or_introl eq_refl)). destruct o as [n|n|x|s|sizes t trc prm skip]; cbn [wlocal];
    repeat match goal with |- context [if ?b then _ else _] => destruct b end; cbn; auto. destruct (H Logic.I). }
  destruct X as (X1 & X2). rewrite <- X1. apply IH; [intros; apply H; right; assumption|exact X2].
Qed.
Lemma announced_nonneg a x : 0 <= x -> (forall n, In (WNt n) a -> 0 <= n) -> 0 <= fold_left (fun x o => match o with WNt n => n | _ => x end) a x.
Proof.
  revert x. induction a as [|o a IH]; intros x X H; [exact X|]. cbn [fold_left]. apply IH; [|intros; apply H; right; assumption].
  destruct o; try exact X. apply H. left. reflexivity.
Qed.
Lemma announced_after b : (forall o, In o b -> ~ is_nt o) -> forall x, fold_left (fun x o => match o with WNt n => n | _ => x end) b x = x.
Proof.
  induction b as [|o b IH]; intros H x; [reflexivity|]. cbn [fold_left]. rewrite IH by (intros; apply H; right; assumption).
  specialize (H o (or_introl eq_refl)). destruct o; try reflexivity. destruct (H Logic.I).
Qed.
Lemma no_writes_end a : (forall o, In o a -> ~ writes o) -> zmax (map write_end a) = 0.
Proof.
  induction a as [|o a IH]; intros H; [reflexivity|]. cbn [map zmax fold_right]. fold (zmax (map write_end a)). rewrite IH by (intros; apply H; right; assumption).
  specialize (H o (or_introl eq_refl)). destruct o; try reflexivity. destruct (H Logic.I).
Qed.
(** Announcements first, then writes. *)
Definition orderly (nt : Z) (ops : list wop) : Prop :=
  exists a b, ops = a ++ b /\ (forall o, In o a -> ~ writes o) /\ (forall n, In (WNt n) a -> 0 <= n <= nt) /\
  (forall o, In o b -> ~ is_nt o /\ write_fine nt o).
Lemma orderly_nt nt ops : nt < two64 -> orderly nt ops ->
  w_nt (local ops w_init) = asked ops /\ (w_stalent (local ops w_init) = true <-> exists o, In o ops /\ writes o).
Proof.
  intros NT (a & b & -> & A1 & A2 & B). rewrite local_app.
  destruct (announce_nt a A1 w_init eq_refl) as (N1 & S1). cbn [w_nt w_init] in N1.
  pose proof (announced_nonneg a 0 ltac:(lia) ltac:(intros n I; apply A2, I)) as P0.
  destruct (writes_nt nt b NT B (local a w_init)) as (N2 & S2); [rewrite N1; exact P0|].
  rewrite N2, N1, S2, S1. unfold asked, announced. rewrite fold_left_app, map_app, zmax_app, (no_writes_end a A1).
  rewrite (announced_after b) by (intros o I; apply B, I). split; [pose proof (zmax_nonneg (map write_end b)); lia|]. split.
  - intros [E|(o & I & W)]; [discriminate|]. exists o. split; [apply in_or_app; right; exact I|exact W].
  - intros (o & I & W). right. apply in_app_or in I. destruct I as [I|I]; [destruct (A1 o I W)|]. exists o. auto.
Qed.

(** ---- closing ---- *)
Lemma cevents_refl l : cevents_eqb l l = true.
Proof. induction l as [|e l IH]; [reflexivity|]. cbn. rewrite IH. destruct e; cbn; rewrite ?Z.eqb_refl; reflexivity. Qed.
Lemma close_spec maxSize w0 ws f :
  3600 <= maxSize -> In w0 ws -> hd w0 ws = w0 ->
  (forall w, In w ws -> close_events ws w = close_events ws w0) ->
  w_err w0 = false -> w_writeHO w0 = true -> w_stalent w0 || w_resize w0 = true -> fits (close_nt ws w0) (w_ns w0) ->
  forall h, header w0 = Some h ->
  exists f', close maxSize ws f = Some f' /\ fsize f' = trace_at (w_ns w0) (close_nt ws w0) /\
  (forall q, 0 <= q < 3600 -> fbyte f' q = h q) /\
  (forall q, 3600 <= q < fsize f' -> fbyte f' q = if q <? fsize f then fbyte f q else 0).
Proof.
  intros M I HD E ER HO RS F h HH. destruct ws as [|w1 ws']; [destruct I|]. cbn in HD. subst w1. set (ws := w0 :: ws') in *.
  unfold close. cbv zeta. fold ws. replace (match ws with [] => None | w1 :: _ => _ end) with
    (if forallb (fun w => cevents_eqb (close_events ws w) (close_events ws w0)) ws
     then fold_left (close_event maxSize w0) (close_events ws w0) (Some f) else None) by reflexivity.
  replace (forallb _ ws) with true by (symmetry; apply forallb_forall; intros w W; rewrite (E w W); apply cevents_refl).
  unfold close_events. rewrite ER, HO, RS. pose proof F as (N & NT & SZ & _).
  assert (T : trace_at (w_ns w0) (close_nt ws w0) = getFileSz (close_nt ws w0) (w_ns w0)) by (rewrite getFileSz_exact by exact F; reflexivity).
  assert (G : 3600 <= getFileSz (close_nt ws w0) (w_ns w0)) by (rewrite <- T; apply trace_at_ge; lia).
  set (n := getFileSz _ _) in *.
  assert (X : fold_left (close_event maxSize w0) ((if w_stalent w0 then [CMax] else []) ++ [CSize n] ++ [CHeader]) (Some f) =
     obind (Some (set_size n f)) (fun f => objHO (write_step h) maxSize [getHOSz] 0 f)).
  { destruct (w_stalent w0); cbn [app fold_left close_event obind]; rewrite HH; reflexivity. }
  rewrite X. cbn [obind]. unfold objHO.
  destruct (contig_write_exact (set_size n f) maxSize [getHOSz] 0 getHOSz 0 h ltac:(lia) ltac:(unfold getHOSz; lia)) as (f' & E' & A & B & C).
  exists f'. split; [exact E'|]. unfold getHOSz in *. change (0 <? 3600) with true in C. cbv iota in C. cbn [set_size fsize] in C.
  split; [rewrite C, T; lia|]. split.
  - intros q Q. specialize (A q Q). exact A.
  - intros q Q. rewrite B by lia. cbn [set_size fbyte]. rewrite C in Q.
    destruct (q <? fsize f) eqn:L; [replace (q <? Z.min n (fsize f)) with true by lia|replace (q <? Z.min n (fsize f)) with false by lia]; reflexivity.
Qed.
