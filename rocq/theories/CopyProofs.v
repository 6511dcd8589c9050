(** Proofs for programs that copy traces between files. *)
From Coq Require Import Reals Lra.
From Flocq Require Import Core IEEE754.BinarySingleNaN.
From Verif Require Import Base DecompModel DecompSpec DecompProofs NumEncModel NumEncSpec NumEncProofs CharEncModel CharEncProofs LayoutModel LayoutProofs DataIOModel DataIOProofs
  RuleModel RuleProofs DoubleModel ParamModel ParamProofs HeaderProofs ScalarProofs FileSpec FileModel FileProofs WriteSpec WriteProofs ParamProperties ReadProofs OpenProofs FileProperties TraceProperties.
From Verif Require DecimalSpec DecimalProofs DecimalProperties.
From Verif Require Import CopySpec.
Import ListNotations.
Open Scope Z_scope.

(** ---- the numbers of a header ---- *)
Lemma int16_rd h b : is_byte (h (b - 1)) -> is_byte (h b) -> int16_at h b = rd16 h (b - 1).
Proof.
  intros B0 B1. unfold int16_at, rd16. replace (b - 1 + 1) with b by lia. rewrite from16_value by assumption. unfold be_value. cbn [fold_left]. unfold is_byte in *. unfold s16. cbv zeta.
  replace (256 * (256 * 0 + h (b - 1)) + h b) with (256 * h (b - 1) + h b) by lia. set (v := 256 * h (b - 1) + h b). assert (0 <= v < 65536) by (unfold v; lia).
  destruct (Z.ltb_spec v 32768); [rewrite Z.mod_small by lia; lia|]. replace (v + 32768) with (v - 32768 + 1 * 65536) by lia. rewrite Z.mod_add by lia. rewrite Z.mod_small by lia. lia.
Qed.
Lemma int32_rd h b : (forall k, 0 <= k < 4 -> is_byte (h (b - 1 + k))) -> int32_at h b = rd32 h (b - 1).
Proof.
  intros B. pose proof (B 0 ltac:(lia)) as B0. pose proof (B 1 ltac:(lia)) as B1. pose proof (B 2 ltac:(lia)) as B2. pose proof (B 3 ltac:(lia)) as B3.
  rewrite Z.add_0_r in B0. unfold int32_at, rd32, from_be_int32. rewrite or4_value by assumption. unfold be_value. cbn [fold_left].
  replace (b - 1 + 1) with b in * by lia. replace (b - 1 + 2) with (b + 1) in * by lia. replace (b - 1 + 3) with (b + 2) in * by lia. unfold is_byte in *. unfold s32, two32. cbv zeta.
  replace (256 * (256 * (256 * (256 * 0 + h (b - 1)) + h b) + h (b + 1)) + h (b + 2)) with (16777216 * h (b - 1) + 65536 * h b + 256 * h (b + 1) + h (b + 2)) by lia.
  set (v := 16777216 * h (b - 1) + 65536 * h b + 256 * h (b + 1) + h (b + 2)). assert (0 <= v < 4294967296) by (unfold v; lia).
  destruct (Z.ltb_spec v 2147483648); [rewrite Z.mod_small by lia; lia|]. replace (v + 2147483648) with (v - 2147483648 + 1 * 4294967296) by lia. rewrite Z.mod_add by lia. rewrite Z.mod_small by lia. lia.
Qed.
Lemma rd32_shift h h' a b : (forall k, 0 <= k < 4 -> h (a + k) = h' (b + k)) -> rd32 h a = rd32 h' b.
Proof.
  intros H. unfold rd32. rewrite (H 1), (H 2), (H 3) by lia. pose proof (H 0 ltac:(lia)) as H0. rewrite !Z.add_0_r in H0. rewrite H0. reflexivity.
Qed.
Lemma rd32_range h a : in_s32 (rd32 h a).
Proof. apply s32_range. Qed.
Lemma rd16_range h a : in_s16 (rd16 h a).
Proof. apply s16_range. Qed.

(** ---- bytes ---- *)
Lemma put_bytes m w : mem_bytes m -> Forall is_byte (snd w) -> mem_bytes (put m w).
Proof.
  intros M B x. unfold put. destruct (_ && _) eqn:E; [|apply M]. rewrite Forall_forall in B. apply B, nth_In. lia.
Qed.
Lemma apply_bytes : forall ws m, mem_bytes m -> Forall (fun w => Forall is_byte (snd w)) ws -> mem_bytes (apply_writes ws m).
Proof.
  induction ws as [|w ws IH]; intros m M H; [exact M|]. inversion H; subst. cbn [apply_writes fold_left]. apply (IH (put m w)); [apply put_bytes; assumption|assumption].
Qed.
Lemma insert_byte sz p stride sk buf : counts (p_rule p) MCopy = 0 -> insertParam sz p (fun _ => 0) stride sk = Some buf -> mem_bytes buf.
Proof.
  intros C H. unfold insertParam in H. destruct (omap _ _) as [cws|] eqn:E1 in H; [|discriminate]. cbn [obind] in H.
  destruct (omap _ _) as [tws|] eqn:E2 in H; [|discriminate]. cbn [obind] in H. injection H as <-.
  apply apply_bytes; [intros x; unfold is_byte; lia|]. apply Forall_app. split; apply Forall_forall; intros w W; apply in_concat in W; destruct W as (l & L & W).
  - apply (omap_in _ _ _ _ E1) in L. destruct L as (i & _ & L). unfold copy_write in L. rewrite C in L. cbn in L. injection L as <-. destruct W.
  - apply (omap_in _ _ _ _ E2) in L. destruct L as (i & _ & L). unfold trace_writes in L.
    destruct (omap _ _) as [iw|] eqn:F1 in L; [|discriminate]. cbn [obind] in L. destruct (fold_left _ _ _) as [sc|] eqn:F2 in L; [|discriminate]. cbn [obind] in L.
    destruct (omap _ _) as [fw|] eqn:F3 in L; [|discriminate]. cbn [obind] in L. injection L as <-. apply in_app_or in W. destruct W as [W|W]; [|apply in_app_or in W; destruct W as [W|W]].
    + apply in_concat in W. destruct W as (l & L & W). apply (omap_in _ _ _ _ F1) in L. destruct L as (e & _ & L). unfold int_write in L.
      destruct (e_type e); try (injection L as <-; destruct W); (destruct (val_of _ _ _); [|discriminate]); cbn [obind] in L; injection L as <-; (destruct W as [<-|[]]); apply to_be_bytes.
    + apply in_map_iff in W. destruct W as (x & <- & _). apply to_be_bytes.
    + apply in_concat in W. destruct W as (l & L & W). apply (omap_in _ _ _ _ F3) in L. destruct L as (e & _ & L). unfold float_write in L.
      destruct (e_type e); try (injection L as <-; destruct W). destruct (val_of _ _ _); [|discriminate]. cbn [obind] in L. destruct (sc_get _ _); [|discriminate]. cbn [obind] in L.
      destruct (dlround _); [|discriminate]. cbn [obind] in L. injection L as <-. destruct W as [<-|[]]. apply to_be_bytes.
Qed.
Lemma le_bytes_byte v : Forall is_byte (le_bytes v).
Proof. unfold le_bytes. repeat constructor; apply modbyte. Qed.
Lemma from_disk_bytes n m : 0 <= n -> forall a, 0 <= a < 4 * n -> is_byte (from_disk n m a).
Proof.
  intros N. unfold from_disk. rewrite <- (Z2Nat.id n N). generalize (Z.to_nat n) as k. clear n N. induction k as [|k IH]; intros a A; [lia|].
  replace (zr (Z.of_nat (S k))) with (zr (Z.of_nat k) ++ [Z.of_nat k]).
  - rewrite fold_left_app. cbn [fold_left]. unfold from_disk_step, put. cbn [fst snd]. change (Z.of_nat (length (le_bytes _))) with 4.
    destruct (_ && _) eqn:E; [|apply IH; lia]. pose proof (le_bytes_byte (from_be_float (fold_left from_disk_step (zr (Z.of_nat k)) m (4 * Z.of_nat k)) (fold_left from_disk_step (zr (Z.of_nat k)) m (4 * Z.of_nat k + 1)) (fold_left from_disk_step (zr (Z.of_nat k)) m (4 * Z.of_nat k + 2)) (fold_left from_disk_step (zr (Z.of_nat k)) m (4 * Z.of_nat k + 3)))) as B.
    rewrite Forall_forall in B. apply B, nth_In. change (length (le_bytes _)) with 4%nat. lia.
  - unfold zr, zrange. rewrite !Nat2Z.id, seq_S, map_app. reflexivity.
Qed.
Lemma read_converted maxSize sizes fmt ns t m prm skip f m' prm' :
  readTraceT maxSize sizes fmt ns t (Some m) prm skip f = Some (Some m', prm') -> fmt <> 1 -> exists tb, m' = from_disk (ns * tcount t) tb.
Proof.
  intros H F. unfold readTraceT in H. destruct (match prm with Some _ => _ | None => _ end) as [(tb, p)|] in H; [|discriminate]. cbn [obind] in H.
  destruct tb as [tb|]; [|discriminate]. cbn [convert_read] in H. destruct (Z.eqb_spec fmt 1); [contradiction|]. cbn [obind] in H. injection H as <- _. exists tb. reflexivity.
Qed.

(** ---- coordinates of a file are always small enough to be written ---- *)
Lemma scale_some v s : fin v -> (Rabs (val v) <= bpow radix2 46)%R -> in_s16 s -> exists q, dlround (ddiv v (parse_scalar s)) = Some q.
Proof.
  intros Fv Hv Hs. destruct (parse_value s Hs) as (Fg & _ & Gb). set (g := val (parse_scalar s)) in *.
  assert (P46 : bpow radix2 46 = 70368744177664%R) by reflexivity. assert (P62 : bpow radix2 62 = 4611686018427387904%R) by reflexivity.
  assert (Q : (Rabs (val v / g) <= 70368744177664 * 40000)%R).
  { unfold Rdiv. rewrite Rabs_mult, (Rabs_pos_eq (/ g)) by (left; apply Rinv_0_lt_compat; lra).
    apply Rmult_le_compat; [apply Rabs_pos|left; apply Rinv_0_lt_compat; lra|rewrite <- P46; exact Hv|].
    rewrite <- (Rinv_inv 40000). apply Rinv_le; lra. }
  destruct (rn_error (val v / g)) as (eps & eta & E1 & E2 & E3). rewrite b53 in E1. pose proof eta_small as E0.
  assert (R : (Rabs (rn (val v / g)) <= bpow radix2 62)%R).
  { rewrite E3, P62. eapply Rle_trans; [apply Rabs_triang|]. rewrite Rabs_mult.
    assert (Rabs (1 + eps) <= 1.01)%R by (eapply Rle_trans; [apply Rabs_triang|rewrite Rabs_R1; lra]).
    assert (M : (Rabs (val v / g) * Rabs (1 + eps) <= 70368744177664 * 40000 * 1.01)%R) by (apply Rmult_le_compat; try apply Rabs_pos; assumption).
    lra. }
  destruct (ddiv_spec v (parse_scalar s)) as (VD & FD); [fold g; lra|fold g; eapply Rle_lt_trans; [exact R|apply bpow_lt; lia]|].
  destruct (dlround_some (ddiv v (parse_scalar s))) as (n & E & _); [unfold fin; rewrite FD; exact Fv|rewrite VD; fold g; exact R|eauto].
Qed.
Lemma search_some v : fin v -> (Rabs (val v) <= bpow radix2 46)%R -> exists s, find_scalar v = Some s.
Proof.
  intros Fv Hv. unfold find_scalar. assert (P46 : bpow radix2 46 = 70368744177664%R) by reflexivity. assert (P62 : bpow radix2 62 = 4611686018427387904%R) by reflexivity.
  destruct (dtrunc_bound v Fv) as (ip & -> & _); [eapply Rle_trans; [exact Hv|apply bpow_le; lia]|]. cbn [obind].
  destruct (negb _); [eauto|].
  destruct (d_of_Z_exact 10000 ltac:(cbn; lia)) as (V4 & F4).
  destruct (rn_error (val v * 10000)) as (eps & eta & E1 & E2 & E3). rewrite b53 in E1. pose proof eta_small as E0.
  assert (R : (Rabs (rn (val v * 10000)) <= bpow radix2 62)%R).
  { rewrite E3, P62. eapply Rle_trans; [apply Rabs_triang|]. rewrite !Rabs_mult.
    assert (Rabs (1 + eps) <= 2)%R by (eapply Rle_trans; [apply Rabs_triang|rewrite Rabs_R1; lra]).
    rewrite (Rabs_pos_eq 10000) by lra. rewrite P46 in Hv.
    assert (M : (Rabs (val v) * 10000 * Rabs (1 + eps) <= 70368744177664 * 10000 * 2)%R).
    { apply Rmult_le_compat; try apply Rabs_pos; [apply Rmult_le_pos; [apply Rabs_pos|lra]|apply Rmult_le_compat_r; [lra|exact Hv]|assumption]. }
    lra. }
  destruct (dmul_spec v (d_of_Z 10000)) as (VM & FM); [rewrite V4; eapply Rle_lt_trans; [exact R|apply bpow_lt; lia]|].
  destruct (dlround_some (dmul v (d_of_Z 10000))) as (lr & -> & _); [unfold fin; rewrite FM, Fv, F4; reflexivity|rewrite VM, V4; exact R|].
  cbn [obind]. cbv zeta. destruct (_ =? 0); [eauto|].
  generalize [1; 10; 100; 1000] as l. induction l as [|i l IH]; [cbn; eauto|]. cbn [small_scale]. destruct (Z.rem _ _ =? 0); [exact IH|].
  destruct (scale_some v (s16 (Z.quot (-10000) i)) Fv Hv (s16_in _)) as (q & E). cbv zeta. rewrite E. cbn [obind]. destruct (_ =? ip); [eauto|exact IH].
Qed.
(** The value of a coordinate in a file: at most 2^46. *)
Lemma stored_bound s z : in_s16 s -> in_s32 z -> fin (dmul (parse_scalar s) (d_of_Z z)) /\ (Rabs (val (dmul (parse_scalar s) (d_of_Z z))) <= bpow radix2 46)%R.
Proof.
  intros S Z0. destruct (parse_value s S) as (Fg & Vg & Gb). destruct (d_of_Z_exact z ltac:(unfold in_s32 in Z0; change (2 ^ 53) with 9007199254740992; lia)) as (VZ & FZ).
  assert (P46 : bpow radix2 46 = 70368744177664%R) by reflexivity.
  assert (G : (0 <= val (parse_scalar s) <= 32768)%R).
  { split; [lra|]. rewrite Vg. destruct (Z.eqb_spec s 0); [lra|]. destruct (Z.ltb_spec 0 s); [apply IZR_le; unfold in_s16 in S; lia|].
    apply Rle_trans with (rn 1).
    - apply round_le; [apply fx_valid|apply valid_rnd_N|]. assert (1 <= IZR (- s))%R by (apply IZR_le; lia). unfold Rdiv. rewrite Rmult_1_l. rewrite <- Rinv_1. apply Rinv_le; lra.
    - unfold rn. rewrite (round_generic radix2 fx ZnearestE 1); [lra|apply (int_format 1); cbn; lia]. }
  assert (B : (Rabs (val (parse_scalar s) * val (d_of_Z z)) <= bpow radix2 46)%R).
  { rewrite VZ, Rabs_mult, (Rabs_pos_eq (val (parse_scalar s))) by lra. rewrite P46. replace 70368744177664%R with (32768 * 2147483648)%R by lra.
    apply Rmult_le_compat; [lra|apply Rabs_pos|lra|]. rewrite <- abs_IZR. apply IZR_le. unfold in_s32 in Z0. lia. }
  assert (RB : (Rabs (rn (val (parse_scalar s) * val (d_of_Z z))) <= bpow radix2 46)%R) by (apply abs_round_le_generic; [apply fx_valid|apply valid_rnd_N|rewrite P46; apply (int_format 70368744177664); cbn; lia|exact B]).
  destruct (dmul_spec (parse_scalar s) (d_of_Z z)) as (VM & FM); [eapply Rle_lt_trans; [exact RB|apply bpow_lt; lia]|].
  split; [unfold fin; rewrite FM; unfold fin in Fg, FZ; rewrite Fg, FZ; reflexivity|]. rewrite VM. exact RB.
Qed.

(** ---- what insertParam leaves in the header ---- *)
Lemma insert_fields sz p stride sk buf i m e :
  wf_param p -> usable (p_rule p) -> 0 <= stride -> 0 <= sk -> sk + sz <= p_sz p -> 0 <= i < sz ->
  insertParam sz p (fun _ => 0) stride sk = Some buf -> lookup m (translate (p_rule p)) = Some e ->
  match e_type e with
  | MLong => rd32 buf ((240 + stride) * i + (e_loc e - 1)) = s32 (int_of (p_at p MLong (slot (p_rule p) (i + sk) e)))
  | MShort => rd16 buf ((240 + stride) * i + (e_loc e - 1)) = s16 (int_of (p_at p MShort (slot (p_rule p) (i + sk) e)))
  | MFloat => exists f n, in_s16 f /\ dlround (ddiv (dbl_of (p_at p MFloat (slot (p_rule p) (i + sk) e))) (parse_scalar f)) = Some n /\
      rd16 buf ((240 + stride) * i + (e_scal e - 1)) = f /\ rd32 buf ((240 + stride) * i + (e_loc e - 1)) = s32 n
  | _ => True
  end.
Proof.
  intros W (F & OK) Hs Hk Hle Hi H L. destruct (insert_bytes sz p (fun _ => 0) stride sk buf F OK Hs ltac:(lia) H) as (IB & _).
  destruct (IB i Hi) as (cw & ws & _ & TW & B). set (base := (240 + stride) * i) in *. set (m0 := apply_writes cw (fun _ => 0)) in *.
  assert (I := ReadProofs.lookup_in _ _ _ L). assert (Ht : 0 <= i + sk < p_sz p) by lia.
  destruct (read_int p (i + sk) 0 base ws m0 m e W OK TW Ht L) as (RL & RS).
  destruct (e_type e) eqn:T; try exact Logic.I.
  - rewrite <- (RL eq_refl). destruct (OK m e (e_loc e, 4) I) as (B1 & B2 & _); [unfold efields; rewrite T; left; reflexivity|]. cbn [fst snd] in *.
    replace (e_loc e - 0 - 1) with (e_loc e - 1) by lia. apply rd32_ext. intros k K. apply B. lia.
  - rewrite <- (RS eq_refl). destruct (OK m e (e_loc e, 2) I) as (B1 & B2 & _); [unfold efields; rewrite T; left; reflexivity|]. cbn [fst snd] in *.
    replace (e_loc e - 0 - 1) with (e_loc e - 1) by lia. apply rd16_ext; apply B; lia.
  - destruct (read_float p (i + sk) 0 base ws m0 m e W OK TW Ht L T) as (cs & n & C1 & C2 & C3 & C4).
    assert (R : in_s16 (fold_left combine cs 1)).
    { apply combine_fold_range; [unfold in_s16; lia|]. apply all_some_map in C1. apply Forall_forall. intros s Is.
      assert (X : In (Some s) (cands p (i + sk) (e_scal e) (map snd (translate (p_rule p))))) by (rewrite C1; apply in_map; exact Is).
      unfold cands in X. apply in_map_iff in X. destruct X as (e0 & X & _). destruct (val_of p (i + sk) e0) as [v0|]; [|discriminate]. apply (find_scalar_range _ _ X). }
    exists (fold_left combine cs 1), n. split; [exact R|]. split; [exact C2|]. rewrite s16_id in C3 by exact R. split.
    + rewrite <- C3. destruct (OK m e (e_scal e, 2) I) as (B1 & B2 & _); [unfold efields; rewrite T; right; left; reflexivity|]. cbn [fst snd] in *.
      replace (e_scal e - 0 - 1) with (e_scal e - 1) by lia. apply rd16_ext; apply B; lia.
    + rewrite <- C4. destruct (OK m e (e_loc e, 4) I) as (B1 & B2 & _); [unfold efields; rewrite T; left; reflexivity|]. cbn [fst snd] in *.
      replace (e_loc e - 0 - 1) with (e_loc e - 1) by lia. apply rd32_ext. intros k K. apply B. lia.
Qed.

(** Parameters that hold, at index tr, what a header holds. *)
Definition holds (p : param) (tr : Z) (hd : mem) : Prop :=
  forall m e v, lookup m (translate (p_rule p)) = Some e -> decode hd 0 0 e = Some v -> getPrm tr m p = Some v.
Lemma holds_at p tr hd m e v : wf_param p -> 0 <= tr < p_sz p -> holds p tr hd -> lookup m (translate (p_rule p)) = Some e -> decode hd 0 0 e = Some v ->
  p_at p (e_type e) (slot (p_rule p) tr e) = v.
Proof.
  intros W T H L D. pose proof (H m e v L D) as G. rewrite (getPrm_at p tr m e W L) in G; [congruence| |exact T].
  unfold decode in D. destruct (e_type e); congruence.
Qed.
(** They can always be written. *)
Lemma holds_insert sz p stride sk : wf_param p -> 0 <= sk -> sk + sz <= p_sz p ->
  (forall i, 0 <= i < sz -> exists hd, holds p (i + sk) hd) -> exists buf, insertParam sz p (fun _ => 0) stride sk = Some buf.
Proof.
  intros W K S H. apply insert_some; try assumption.
  - apply find_scalar_range.
  - intros cs Hcs. apply combine_fold_range; [unfold in_s16; lia|exact Hcs].
  - intros i m e Hi L T. destruct (H i Hi) as (hd & Hd).
    assert (D : decode hd 0 0 e = Some (VF (dmul (parse_scalar (rd16 hd (0 + (e_scal e - 0 - 1)))) (d_of_Z (rd32 hd (0 + (e_loc e - 0 - 1))))))) by (unfold decode; rewrite T; reflexivity).
    pose proof (holds_at p (i + sk) hd m e _ W ltac:(lia) Hd L D) as A. rewrite T in A. rewrite A. unfold scalable. cbn [dbl_of].
    destruct (stored_bound (rd16 hd (0 + (e_scal e - 0 - 1))) (rd32 hd (0 + (e_loc e - 0 - 1))) (rd16_range _ _) (rd32_range _ _)) as (Fv & Bv).
    split; [apply search_some; assumption|]. intros s. apply scale_some; assumption.
Qed.
Lemma plain_ok s : plain_scale s -> let s1 := if s =? 0 then 1 else s in
  DecimalSpec.ok_scale s1 /\ parse_scalar s = parse_scalar s1 /\ factor s = (/ IZR (DecimalSpec.den s1))%R.
Proof.
  intros H. cbn in H. unfold DecimalSpec.ok_scale, factor, DecimalSpec.den.
  destruct H as [<-|[<-|[<-|[<-|[<-|[<-|[]]]]]]]; cbn [Z.eqb Z.ltb Z.compare Pos.eqb Z.opp Pos.compare Pos.compare_cont]; (split; [tauto|split; [reflexivity|]]); try (rewrite Rinv_1); reflexivity.
Qed.
Lemma ok_factor s : DecimalSpec.ok_scale s -> factor s = (/ IZR (DecimalSpec.den s))%R.
Proof.
  intros H. unfold DecimalSpec.ok_scale in H. unfold factor, DecimalSpec.den.
  destruct H as [->|[->|[->|[->| ->]]]]; cbn [Z.eqb Z.ltb Z.compare Pos.eqb Z.opp Pos.compare Pos.compare_cont]; try (rewrite Rinv_1); reflexivity.
Qed.
Lemma den_mult s N : DecimalSpec.ok_scale s -> N * 10000 = N * (10000 / DecimalSpec.den s) * DecimalSpec.den s.
Proof.
  intros H. unfold DecimalSpec.ok_scale in H. destruct H as [-> |[-> |[-> |[-> | ->]]]];
  (match goal with |- context [DecimalSpec.den ?d] => let v := eval vm_compute in (DecimalSpec.den d) in change (DecimalSpec.den d) with v end);
  (match goal with |- context [10000 / ?d] => let v := eval vm_compute in (10000 / d) in change (10000 / d) with v end); lia.
Qed.
(** The header written from them holds the same numbers. *)
Lemma header_copied sz p stride sk buf i hd :
  wf_param p -> usable (p_rule p) -> 0 <= stride -> 0 <= sk -> sk + sz <= p_sz p -> 0 <= i < sz ->
  insertParam sz p (fun _ => 0) stride sk = Some buf -> holds p (i + sk) hd ->
  let base := (240 + stride) * i in
  forall m e, lookup m (translate (p_rule p)) = Some e ->
  (e_type e = MLong -> rd32 buf (base + (e_loc e - 1)) = rd32 hd (e_loc e - 1)) /\
  (e_type e = MShort -> rd16 buf (base + (e_loc e - 1)) = rd16 hd (e_loc e - 1)) /\
  (e_type e = MFloat -> plain_scale (rd16 hd (e_scal e - 1)) ->
     plain_scale (rd16 buf (base + (e_scal e - 1))) /\
     (IZR (rd32 buf (base + (e_loc e - 1))) * factor (rd16 buf (base + (e_scal e - 1))) = IZR (rd32 hd (e_loc e - 1)) * factor (rd16 hd (e_scal e - 1)))%R).
Proof.
  intros W U Hs Hk Hle Hi H HD base m e L. pose proof (insert_fields sz p stride sk buf i m e W U Hs Hk Hle Hi H L) as IF. fold base in IF.
  assert (Ht : 0 <= i + sk < p_sz p) by lia. split; [|split].
  - intros T. rewrite T in IF. rewrite IF. pose proof (holds_at p (i + sk) hd m e _ W Ht HD L ltac:(unfold decode; rewrite T; reflexivity)) as A. rewrite T in A. rewrite A. cbn [int_of].
    replace (0 + (e_loc e - 0 - 1)) with (e_loc e - 1) by lia. apply s32_id, rd32_range.
  - intros T. rewrite T in IF. rewrite IF. pose proof (holds_at p (i + sk) hd m e _ W Ht HD L ltac:(unfold decode; rewrite T; reflexivity)) as A. rewrite T in A. rewrite A. cbn [int_of].
    replace (0 + (e_loc e - 0 - 1)) with (e_loc e - 1) by lia. apply s16_id, rd16_range.
  - intros T PS. set (s0 := rd16 hd (e_scal e - 1)) in *. destruct (plain_ok s0 PS) as (OK1 & PE & FE). set (s1 := if s0 =? 0 then 1 else s0) in *.
    assert (DEC : forall N, in_s32 N -> let n := N * (10000 / DecimalSpec.den s1) in N * 10000 = n * DecimalSpec.den s1).
    { intros N _. exact (den_mult s1 N OK1). }
    assert (VAL : forall m' e', lookup m' (translate (p_rule p)) = Some e' -> e_type e' = MFloat -> e_scal e' = e_scal e ->
      let N := rd32 hd (e_loc e' - 1) in let n := N * (10000 / DecimalSpec.den s1) in
      getPrm (i + sk) m' p = Some (VF (dmul (parse_scalar s1) (d_of_Z N))) /\ DecimalSpec.decimal n (dmul (parse_scalar s1) (d_of_Z N)) /\ DecimalSpec.fits n s1).
    { intros m' e' L' T' S'. cbv zeta. set (N := rd32 hd (e_loc e' - 1)). pose proof (DEC N (rd32_range _ _)) as D. cbv zeta in D. split; [|split].
      - rewrite (HD m' e' _ L' ltac:(unfold decode; rewrite T'; reflexivity)). do 2 f_equal. rewrite S'. replace (0 + (e_scal e - 0 - 1)) with (e_scal e - 1) by lia.
        replace (0 + (e_loc e' - 0 - 1)) with (e_loc e' - 1) by lia. fold s0 N. rewrite PE. reflexivity.
      - apply DecimalProofs.read_back; [exact OK1|exact D|apply rd32_range].
      - exists N. split; [exact D|apply rd32_range]. }
    set (N := rd32 hd (e_loc e - 1)) in *. set (n := N * (10000 / DecimalSpec.den s1)) in *. pose proof (DEC N (rd32_range _ _)) as DN. cbv zeta in DN. fold n in DN.
    destruct (VAL m e L T eq_refl) as (G & Dv & FT). fold N n in G, Dv, FT. set (v := dmul (parse_scalar s1) (d_of_Z N)) in *.
    assert (DF : DecimalProperties.decimals_fit p (i + sk) (e_scal e) s1).
    { split; [exact OK1|]. intros m' e' L' T' S'. destruct (VAL m' e' L' T' S') as (G' & D' & F'). do 2 eexists. split; [exact G'|]. split; [exact D'|exact F']. }
    set (q := newParam (p_rule p) sz). assert (WQ : wf_param q) by (apply newParam_wf; [apply W|lia]).
    destruct (DecimalProperties.decimals_wf p q sz (fun _ => 0) buf stride sk 0 W WQ eq_refl U Hs ltac:(lia) Hk Hle ltac:(lia) ltac:(cbn; lia) H) as (q' & _ & A).
    destruct (A i m e s1 n v Hi L T DF G Dv FT) as (S1 & _ & (N' & E' & R') & _). fold base in S1, E'. rewrite T in IF. destruct IF as (f & k & _ & DL & RS & RI).
    assert (AT : p_at p MFloat (slot (p_rule p) (i + sk) e) = VF v).
    { rewrite (getPrm_at p (i + sk) m e W L) in G by (congruence || lia). rewrite T in G. congruence. }
    rewrite AT in DL. cbn [dbl_of] in DL. rewrite RS in *. rewrite (DecimalProofs.div_scale n v f N' Dv S1 E' R') in DL. injection DL as <-. rewrite RI, (s32_id N' R').
    split; [cbn; unfold DecimalSpec.ok_scale in S1; intuition congruence|]. rewrite (ok_factor f S1), FE. fold N.
    pose proof (DecimalProofs.den_pos f S1) as P1. pose proof (DecimalProofs.den_pos s1 OK1) as P2.
    assert (X : N' * DecimalSpec.den s1 = N * DecimalSpec.den f).
    { apply (Z.mul_reg_l _ _ 10000); [lia|]. replace (10000 * (N' * DecimalSpec.den s1)) with (N' * 10000 * DecimalSpec.den s1) by ring. rewrite E'.
      replace (10000 * (N * DecimalSpec.den f)) with (N * 10000 * DecimalSpec.den f) by ring. rewrite DN. ring. }
    apply (f_equal IZR) in X. rewrite !mult_IZR in X. assert (0 < IZR (DecimalSpec.den s1))%R by (apply IZR_lt; lia). assert (0 < IZR (DecimalSpec.den f))%R by (apply IZR_lt; lia).
    apply (Rmult_eq_reg_r (IZR (DecimalSpec.den s1) * IZR (DecimalSpec.den f))); [|apply Rgt_not_eq, Rmult_lt_0_compat; assumption].
    replace (IZR N' * / IZR (DecimalSpec.den f) * (IZR (DecimalSpec.den s1) * IZR (DecimalSpec.den f)))%R with (IZR N' * IZR (DecimalSpec.den s1))%R by (field; lra).
    replace (IZR N * / IZR (DecimalSpec.den s1) * (IZR (DecimalSpec.den s1) * IZR (DecimalSpec.den f)))%R with (IZR N * IZR (DecimalSpec.den f))%R by (field; lra). exact X.
Qed.

(** ---- histories that copy ---- *)
(** A write call whose traces are copies: for every trace it writes, the samples and
    metadata are those of the trace [src] names. *)
Definition call_copies (src : Z -> file * Z) (ns : Z) (rl : rule) (o : wop) : Prop :=
  match o with
  | WTrace _ t (Some m) (Some p) skip => wf_param p /\ p_rule p = rl /\ 0 <= skip /\ skip + tcount t <= p_sz p /\
    forall j, 0 <= j < tcount t -> let '(f, a) := src (tpos t j) in
      (forall k, 0 <= k < ns -> sample m (j * ns + k) = disk_sample f ns a k) /\ holds p (j + skip) (disk_header f ns a)
  | WTrace _ _ _ _ _ => False
  | _ => True
  end.
Lemma last_some {A} (g : wop -> option A) : forall (h : history) acc, (acc <> None \/ exists r o, In (r, o) h /\ g o <> None) ->
  fold_left (fun acc (x : nat * wop) => match g (snd x) with Some s => Some s | None => acc end) h acc <> None.
Proof.
  induction h as [|[r o] h IH]; intros acc H; [destruct H as [H|(r & o & [] & _)]; exact H|]. cbn [fold_left snd]. apply IH.
  destruct H as [H|(r' & o' & [E|I] & G)].
  - left. destruct (g o); [discriminate|exact H].
  - injection E as -> ->. left. destruct (g o'); [discriminate|contradiction].
  - right. eauto.
Qed.
Lemma find_pos_of t b j : 0 <= j < tcount t -> tpos t j = b -> find_pos t b <> None.
Proof. intros J E N. exact (find_pos_none t b N j J E). Qed.
Lemma history_copies maxSize p h f0 f' nt ns src rl :
  written_file maxSize p h f0 f' nt ns -> usable rl -> counts rl MCopy = 0 ->
  (forall x, In x h -> call_copies src ns rl (snd x)) -> (forall b, file_bytes (fst (src b))) ->
  forall b, (exists r sizes t trc prm skip j, In (r, WTrace sizes t trc prm skip) h /\ 0 <= j < tcount t /\ tpos t j = b) ->
  let '(f, a) := src b in
  (forall k, 0 <= k < ns -> disk_sample f' ns b k = disk_sample f ns a k) /\
  (forall m e, lookup m (translate rl) = Some e -> e_type e = MLong -> int32_at (disk_header f' ns b) (e_loc e) = int32_at (disk_header f ns a) (e_loc e)) /\
  (forall m e, lookup m (translate rl) = Some e -> e_type e = MShort -> int16_at (disk_header f' ns b) (e_loc e) = int16_at (disk_header f ns a) (e_loc e)) /\
  (forall m e, lookup m (translate rl) = Some e -> e_type e = MFloat -> plain_scale (int16_at (disk_header f ns a) (e_scal e)) ->
     plain_scale (int16_at (disk_header f' ns b) (e_scal e)) /\
     coordinate (disk_header f' ns b) (e_loc e) (e_scal e) = coordinate (disk_header f ns a) (e_loc e) (e_scal e)).
Proof.
  intros W (FR & FO) NC CC FB b (r & sizes & t & trc & prm & skip & j & I & J & E). destruct (src b) as (f, a) eqn:SRC.
  destruct (life_samples _ _ _ _ _ _ _ W) as (L1 & _ & _ & L4 & _).
  pose proof (CC _ I) as C. cbn [snd call_copies] in C. destruct trc as [m0|]; [|contradiction]. destruct prm as [p0|]; [|contradiction].
  split.
  - (* samples *)
    destruct (last_samples ns h b) as [s|] eqn:LS.
    + destruct (L1 b s LS) as (_ & D). intros k K. rewrite D by exact K.
      apply (last_in (fun o => written ns o b)) in LS. destruct LS as [LS|(r' & o' & I' & G)]; [discriminate|].
      specialize (CC _ I'). cbn [snd] in CC. destruct o' as [| | | |sz' t' [m'|] prm' skip']; cbn [written] in G; try discriminate.
      destruct (find_pos t' b) as [j'|] eqn:FP; [|discriminate]. cbn [option_map] in G. injection G as <-. apply find_pos_some in FP. destruct FP as (J' & E').
      cbn [call_copies] in CC. destruct prm' as [p'|]; [|contradiction]. destruct CC as (_ & _ & _ & _ & CC). specialize (CC j' J'). rewrite E', SRC in CC. apply CC. exact K.
    + exfalso. apply (last_some (fun o => written ns o b) h None) in LS; [exact LS|]. right. exists r, (WTrace sizes t (Some m0) (Some p0) skip). split; [exact I|].
      cbn [written]. pose proof (find_pos_of t b j J E). destruct (find_pos t b); [discriminate|contradiction].
  - (* headers *)
    assert (MD : forall x, In x h -> md_ok (snd x)).
    { intros x X. specialize (CC x X). destruct (snd x) as [| | | |sz' t' [m'|] [p'|] skip']; cbn [md_ok call_copies] in *; try exact Logic.I; try contradiction.
      destruct CC as (A1 & A2 & A3 & A4 & _). rewrite A2. auto. }
    destruct (last_md h b) as [(p', tr)|] eqn:LM.
    + destruct (L4 b p' tr LM MD) as (_ & st & sz & sk & jj & buf & Q1 & Q2 & Q3 & Q4 & Q5 & Q6 & Q7 & Q8 & Q9 & Q10).
      assert (HB : p_rule p' = rl /\ holds p' (jj + sk) (disk_header f ns a)).
      { rewrite Q5. apply (last_in (fun o => written_md o b)) in LM. destruct LM as [LM|(r' & o' & I' & G)]; [discriminate|].
        specialize (CC _ I'). cbn [snd] in CC. destruct o' as [| | | |sz' t' [m'|] [p''|] skip']; cbn [written_md] in G; try discriminate; [|contradiction].
        destruct (find_pos t' b) as [j'|] eqn:FP; [|discriminate]. cbn [option_map] in G. injection G as -> <-. apply find_pos_some in FP. destruct FP as (J' & E').
        cbn [call_copies] in CC. destruct CC as (_ & A2 & _ & _ & CC). specialize (CC j' J'). rewrite E', SRC in CC. split; [exact A2|apply CC]. }
      destruct HB as (RL & HD). pose proof (header_copied sz p' st sk buf jj (disk_header f ns a) Q6 (conj Q7 Q8) Q1 Q3 Q4 Q2 Q9 HD) as HC. cbv zeta in HC. rewrite RL in *.
      assert (BB : mem_bytes buf) by (apply (insert_byte sz p' st sk); [rewrite RL; exact NC|exact Q9]).
      assert (FH : forall x, is_byte (disk_header f ns a x)) by (intros x; pose proof (FB b) as FBb; rewrite SRC in FBb; apply FBb).
      assert (R32 : forall l, 1 <= l <= 237 -> int32_at (disk_header f' ns b) l = rd32 buf ((240 + st) * jj + (l - 1))).
      { intros l Hl. rewrite int32_rd by (intros k K; rewrite Q10 by lia; apply BB). apply rd32_shift. intros k K. rewrite Q10 by lia. f_equal. lia. }
      assert (R16 : forall l, 1 <= l <= 239 -> int16_at (disk_header f' ns b) l = rd16 buf ((240 + st) * jj + (l - 1))).
      { intros l Hl. rewrite int16_rd by (rewrite Q10 by lia; apply BB). unfold rd16. rewrite !Q10 by lia. f_equal; f_equal; lia. }
      split; [|split].
      * intros m e LK T. destruct (FO m e (e_loc e, 4) (ReadProofs.lookup_in _ _ _ LK)) as (B1 & B2 & _); [unfold efields; rewrite T; left; reflexivity|]. cbn [fst snd] in *.
        rewrite R32 by lia. rewrite (proj1 (HC m e LK) T). rewrite int32_rd by (intros; apply FH). reflexivity.
      * intros m e LK T. destruct (FO m e (e_loc e, 2) (ReadProofs.lookup_in _ _ _ LK)) as (B1 & B2 & _); [unfold efields; rewrite T; left; reflexivity|]. cbn [fst snd] in *.
        rewrite R16 by lia. rewrite (proj1 (proj2 (HC m e LK)) T). rewrite int16_rd by (intros; apply FH). reflexivity.
      * intros m e LK T PS. destruct (FO m e (e_loc e, 4) (ReadProofs.lookup_in _ _ _ LK)) as (B1 & B2 & _); [unfold efields; rewrite T; left; reflexivity|].
        destruct (FO m e (e_scal e, 2) (ReadProofs.lookup_in _ _ _ LK)) as (B3 & B4 & _); [unfold efields; rewrite T; right; left; reflexivity|]. cbn [fst snd] in *.
        unfold coordinate. rewrite R32, R16 by lia. rewrite int16_rd in * by (intros; apply FH). rewrite int32_rd by (intros; apply FH). apply (proj2 (proj2 (HC m e LK)) T PS).
    + exfalso. apply (last_some (fun o => written_md o b) h None) in LM; [exact LM|]. right. exists r, (WTrace sizes t (Some m0) (Some p0) skip). split; [exact I|].
      cbn [written_md]. pose proof (find_pos_of t b j J E). destruct (find_pos t b); [discriminate|contradiction].
Qed.

(** ---- programs: announcements, then writes ---- *)
Definition good_write (nt ns : Z) (o : wop) : Prop :=
  match o with
  | WTrace sizes t trc prm skip => in_file nt t /\ write_fine nt o /\ (forall m, trc = Some m -> mem_bytes m) /\ (trc <> None \/ prm <> None) /\
      (forall p, prm = Some p -> exists buf, insertParam (tcount t) p (fun _ => 0) (match trc with None => 0 | Some _ => 4 * ns end) skip = Some buf)
  | _ => False
  end.
Lemma write_some maxSize nt ns sizes t trc prm skip f :
  2 * (240 + 4 * ns) <= maxSize -> fits nt ns -> good_write nt ns (WTrace sizes t trc prm skip) -> exists x, writeTraceT maxSize sizes ns t trc prm skip f = Some x.
Proof.
  intros M F (V & _ & B & NN & IP). pose proof F as (N & _ & _ & W). apply in_file_valid in V. destruct V as (V & D). unfold writeTraceT. rewrite stride_exact by assumption.
  destruct prm as [p|].
  - destruct (IP p eq_refl) as (buf & ->). cbn [obind]. destruct trc as [m|]; cbn [option_map].
    + destruct (obj_write f maxSize sizes Full t ns nt (put_samples ns (tcount t) (to_disk (ns * tcount t) m) buf) M F V D) as (f' & -> & _). cbn [obind]. eauto.
    + destruct (obj_write f maxSize sizes Head t ns nt buf M F V D) as (f' & -> & _). cbn [obind]. eauto.
  - destruct trc as [m|]; [|destruct NN; congruence]. cbn [option_map].
    destruct (obj_write f maxSize sizes Samp t ns nt (to_disk (ns * tcount t) m) M F V D) as (f' & -> & _). cbn [obind]. eauto.
Qed.
Lemma local_writes ops : (forall o, In o ops -> writes o) -> forall w,
  w_ns (local ops w) = w_ns w /\ w_text (local ops w) = w_text w /\ w_inc (local ops w) = w_inc w /\ w_nsSet (local ops w) = w_nsSet w /\ (w_nsSet w = true -> w_err (local ops w) = w_err w).
Proof.
  induction ops as [|o ops IH]; intros H w; [auto 6|]. cbn [local fold_left]. destruct (IH ltac:(intros; apply H; right; assumption) (wlocal o w)) as (A1 & A2 & A3 & A4 & A5).
  fold (local ops (wlocal o w)). specialize (H o (or_introl eq_refl)). destruct o as [| | | |sizes t trc prm skip]; try contradiction. rewrite A1, A2, A3, A4. cbn [wlocal w_ns w_text w_inc w_nsSet].
  repeat (split; [reflexivity|]). intros S. etransitivity; [exact (A5 S)|]. cbn [wlocal w_err]. rewrite S. cbn. apply orb_false_r.
Qed.
Lemma split_prefix {A} (P : A -> Prop) : forall (c a b d : list A) x, (forall y, In y c -> ~ P y) -> P x -> a ++ x :: b = c ++ d -> exists w, a = c ++ w /\ d = w ++ x :: b.
Proof.
  induction c as [|y c IH]; intros a b d x H X E; [exists a; auto|]. destruct a as [|z a]; cbn [app] in E; injection E as E1 E2.
  - subst. destruct (H y (or_introl eq_refl) X).
  - subst z. destruct (IH a b d x ltac:(intros; apply H; right; assumption) X E2) as (w & -> & ->). exists w. auto.
Qed.
Lemma rank_ops_app h1 h2 r : rank_ops (h1 ++ h2) r = rank_ops h1 r ++ rank_ops h2 r.
Proof. unfold rank_ops. rewrite filter_app, map_app. reflexivity. Qed.
Lemma program_life maxSize p h f0 nt ns hops wr :
  (0 < p)%nat -> 3600 <= maxSize -> 2 * (240 + 4 * ns) <= maxSize -> fits nt ns -> file_bytes f0 ->
  (forall x, In x h -> (fst x < p)%nat) -> (forall r, (r < p)%nat -> rank_ops h r = hops ++ wr r) ->
  (forall o, In o hops -> ~ writes o) -> (forall n, In (WNt n) hops -> 0 <= n <= nt) ->
  w_err (local hops w_init) = false -> w_nsSet (local hops w_init) = true -> w_ns (local hops w_init) = ns ->
  (exists hd, header (local hops w_init) = Some hd) ->
  (forall r o, (r < p)%nat -> In o (wr r) -> good_write nt ns o) -> (forall r, (r < p)%nat -> wr r <> []) ->
  (exists f', written_file maxSize p h f0 f' nt ns) /\
  (forall r, (r < p)%nat -> w_text (rank_state h r) = w_text (local hops w_init) /\ w_inc (rank_state h r) = w_inc (local hops w_init)).
Proof.
  intros P M M2 F FB RK RO HW HN HE HS HNS (hd & HD) GW NE.
  assert (WR : forall r o, (r < p)%nat -> In o (wr r) -> writes o) by (intros r o R I; specialize (GW r o R I); destruct o; try contradiction; exact Logic.I).
  assert (ST : forall r w d, (r < p)%nat -> wr r = w ++ d -> let s := local (hops ++ w) w_init in w_ns s = ns /\ w_text s = w_text (local hops w_init) /\ w_inc s = w_inc (local hops w_init) /\ w_err s = false).
  { intros r w d R E. cbv zeta. rewrite local_app. destruct (local_writes w ltac:(intros o I; apply (WR r o R); rewrite E; apply in_or_app; left; exact I) (local hops w_init)) as (A1 & A2 & A3 & A4 & A5).
    rewrite A1, A2, A3, (A5 HS). auto. }
  assert (RS : forall r, (r < p)%nat -> rank_state h r = local (hops ++ wr r) w_init) by (intros r R; unfold rank_state; rewrite RO by exact R; reflexivity).
  assert (SS : forall r, (r < p)%nat -> w_ns (rank_state h r) = ns /\ w_text (rank_state h r) = w_text (local hops w_init) /\ w_inc (rank_state h r) = w_inc (local hops w_init) /\ w_err (rank_state h r) = false).
  { intros r R. rewrite (RS r R). apply (ST r (wr r) [] R). symmetry. apply app_nil_r. }
  assert (OK : history_ok nt ns h).
  { intros h1 r o h2 E. destruct o as [| | | |sizes t trc prm skip]; try exact Logic.I. cbn [op_ok].
    assert (R : (r < p)%nat) by (apply (RK (r, WTrace sizes t trc prm skip)); rewrite E; apply in_or_app; right; left; reflexivity).
    pose proof (RO r R) as O. rewrite E, rank_ops_app in O. unfold rank_ops at 2 in O. cbn [filter fst] in O. rewrite Nat.eqb_refl in O. cbn [map snd] in O.
    destruct (split_prefix writes hops _ _ _ (WTrace sizes t trc prm skip) HW Logic.I O) as (w & W1 & W2). unfold rank_state. rewrite W1. change (fold_left (fun w0 o => wlocal o w0) (hops ++ w) w_init) with (local (hops ++ w) w_init).
    destruct (ST r w _ R W2) as (A & _). split; [exact A|]. assert (GI : good_write nt ns (WTrace sizes t trc prm skip)) by (apply (GW r _ R); rewrite W2; apply in_or_app; right; left; reflexivity).
    destruct GI as (G1 & _ & G3 & _). auto. }
  assert (IN : forall r o, In (r, o) h -> writes o -> good_write nt ns o).
  { intros r o I W. assert (R : (r < p)%nat) by exact (RK _ I). pose proof (in_rank_ops h r o I) as IO. rewrite (RO r R) in IO. apply in_app_or in IO. destruct IO as [IO|IO]; [destruct (HW o IO W)|apply (GW r o R IO)]. }
  assert (RUN : forall h2 h1 f, h = h1 ++ h2 -> exists f', run_from maxSize h1 h2 f = Some f').
  { induction h2 as [|[r o] h2 IH]; intros h1 f E; [cbn; eauto|]. cbn [run_from].
    assert (I : In (r, o) h) by (rewrite E; apply in_or_app; right; left; reflexivity).
    assert (WS : exists f1, wfile maxSize o (w_ns (rank_state h1 r)) f = Some f1).
    { destruct o as [| | | |sizes t trc prm skip]; cbn [wfile]; eauto. pose proof (OK h1 r _ h2 E) as (-> & _).
      destruct (write_some maxSize nt ns sizes t trc prm skip f M2 F (IN r _ I Logic.I)) as (x & ->). cbn. eauto. }
    destruct WS as (f1 & ->). cbn [obind]. apply IH. rewrite <- app_assoc. exact E. }
  assert (WB : well_behaved nt ns h p).
  { intros r R. destruct (SS r R) as (A1 & _ & _ & A4). split; [|auto]. rewrite (RO r R). exists hops, (wr r). split; [reflexivity|]. split; [exact HW|]. split; [exact HN|].
    intros o I. specialize (GW r o R I). destruct o; try contradiction. split; [auto|apply GW]. }
  assert (AW : all_write h p).
  { intros r R. destruct (wr r) as [|o l] eqn:E; [destruct (NE r R E)|]. exists o. rewrite (RO r R), E. split; [apply in_or_app; right; left; reflexivity|].
    apply (WR r o R). rewrite E. left. reflexivity. }
  assert (H0 : exists hd, header (rank_state h 0) = Some hd).
  { destruct (SS 0%nat P) as (A1 & A2 & A3 & _). exists hd. unfold header in *. rewrite A3. destruct (dlround _) as [k|] in *; [|discriminate]. cbn [obind] in *. injection HD as <-. f_equal. f_equal. unfold header_writes. rewrite A2, A1, HNS. reflexivity. }
  split; [|intros r R; destruct (SS r R) as (_ & A2 & A3 & _); auto].
  destruct (RUN h [] f0 eq_refl) as (f1 & R1). destruct (C39_size_after_close_partial maxSize p h f1 nt ns P M F WB AW H0) as (f' & C & _).
  exists f'. constructor; try assumption; [auto|]. unfold write_file, run. rewrite R1. cbn [obind]. exact C.
Qed.
