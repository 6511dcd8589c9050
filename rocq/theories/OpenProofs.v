(** Opening a file: what the header written at close tells a reader. *)
From Coq Require Import Reals Lra.
From Flocq Require Import Core IEEE754.BinarySingleNaN.
From Verif Require Import Base NumEncModel NumEncSpec NumEncProofs CharEncModel LayoutModel LayoutProofs DataIOModel DataIOProofs
  RuleModel RuleProofs DoubleModel ParamModel ParamProofs HeaderProofs ScalarProofs FileSpec FileModel FileProofs WriteSpec WriteProofs.
Open Scope Z_scope.

(** ---- the header ---- *)
Lemma header_unique w k a b x : (length (w_text w) <= 3200)%nat ->
  In a (header_writes w k) -> In b (header_writes w k) -> covers a x -> covers b x -> a = b.
Proof.
  intros T A B CA CB. unfold header_writes in A, B. unfold covers in CA, CB.
  assert (L : forall v, Z.of_nat (length (to_big_endian 2 v)) = 2) by (intros; apply be_len).
  cbn [In] in A, B.
  repeat (destruct A as [<-|A]); try contradiction; cbn [fst snd] in CA; rewrite ?L in CA;
  repeat (destruct B as [<-|B]); try contradiction; cbn [fst snd] in CB; rewrite ?L in CB; try reflexivity; exfalso; lia.
Qed.
Lemma header_field w k h a v : (length (w_text w) <= 3200)%nat -> h = apply_writes (header_writes w k) (fun _ => 0) ->
  In (a, to_big_endian 2 v) (header_writes w k) -> rd16 h a = s16 v.
Proof.
  intros T -> I. apply rd16_written. intros j J.
  rewrite (writes_at _ _ _ (wbyte (a, to_big_endian 2 v) (a + j))).
  - unfold wbyte. cbn [fst snd]. f_equal. lia.
  - exists (a, to_big_endian 2 v). split; [exact I|]. unfold covers. cbn [fst snd]. rewrite be_len. lia.
  - intros w' I' C. f_equal. apply (header_unique w k w' _ (a + j) T I' I C). unfold covers. cbn [fst snd]. rewrite be_len. lia.
Qed.
Lemma header_text w k q : (length (w_text w) <= 3200)%nat -> 0 <= q < 3200 ->
  apply_writes (header_writes w k) (fun _ => 0) q = nth (Z.to_nat q) (w_text w) 0.
Proof.
  intros T Q. assert (L : forall v, Z.of_nat (length (to_big_endian 2 v)) = 2) by (intros; apply be_len).
  destruct (Z.lt_ge_cases q (Z.of_nat (length (w_text w)))) as [C|C].
  - apply writes_at.
    + exists (0, w_text w). split; [left; reflexivity|unfold covers; cbn [fst snd]; lia].
    + intros v I V. assert (v = (0, w_text w)) as ->.
      { apply (header_unique w k v _ q T I); [left; reflexivity|exact V|unfold covers; cbn [fst snd]; lia]. }
      unfold wbyte. cbn [fst snd]. f_equal. lia.
  - rewrite nth_overflow by lia. apply writes_out. intros v I V. unfold covers in V. cbn [header_writes In] in I.
    repeat (destruct I as [<-|I]); try contradiction; cbn [fst snd] in V; rewrite ?L in V; lia.
Qed.
Lemma header_some w h : header w = Some h -> (length (w_text w) <= 3200)%nat ->
  exists k, dlround (ddiv (w_inc w) incFactor) = Some k /\
  rd16 h 3220 = s16 (w_ns w) /\ rd16 h 3216 = s16 k /\ rd16 h 3224 = 5 /\
  (forall q, 0 <= q < 3200 -> h q = nth (Z.to_nat q) (w_text w) 0).
Proof.
  unfold header. intros H T. destruct (dlround _) as [k|]; [|discriminate]. cbn [obind] in H.
  assert (E : h = apply_writes (header_writes w k) (fun _ => 0)) by congruence. clear H. exists k. split; [reflexivity|].
  assert (I16 : forall z, s16 (s16 z) = s16 z) by (intros; apply s16_id, s16_in).
  split; [rewrite (header_field w k h 3220 (s16 (w_ns w)) T E); [apply I16|right; left; reflexivity]|].
  split; [rewrite (header_field w k h 3216 (s16 k) T E); [apply I16|right; right; right; left; reflexivity]|].
  split; [rewrite (header_field w k h 3224 5 T E); [reflexivity|right; right; left; reflexivity]|].
  intros q Q. rewrite E. apply header_text; assumption.
Qed.

(** ---- invariants of the writers' state ---- *)
Lemma text_short ops : forall w, (length (w_text w) <= 3200)%nat -> (length (w_text (local ops w)) <= 3200)%nat.
Proof.
  induction ops as [|o ops IH]; intros w H; [exact H|]. cbn [local fold_left]. apply IH.
  destruct o; cbn [wlocal]; repeat match goal with |- context [if ?b then _ else _] => destruct b end; cbn [w_text]; try exact H.
  unfold resize. rewrite app_length, firstn_length, repeat_length. unfold text_size. lia.
Qed.
Lemma ns_small ops : forall w, w_ns w <= 32767 -> w_ns (local ops w) <= 32767.
Proof.
  induction ops as [|o ops IH]; intros w H; [exact H|]. cbn [local fold_left]. apply IH.
  destruct o as [n| | | |]; cbn [wlocal]; try (destruct (32767 <? n) eqn:E); repeat match goal with |- context [if ?b then _ else _] => destruct b end; cbn [w_ns]; lia.
Qed.
Lemma rank_text h r : (length (w_text (rank_state h r)) <= 3200)%nat.
Proof. apply (text_short (rank_ops h r) w_init). cbn. lia. Qed.
Lemma rank_ns h r : w_ns (rank_state h r) <= 32767.
Proof. apply (ns_small (rank_ops h r) w_init). cbn. lia. Qed.

(** ---- the sample interval ---- *)
Open Scope R_scope.
Lemma incFactor_val : val incFactor = 4722366482869645 / 4722366482869645213696 /\ fin incFactor.
Proof.
  split; [|vm_compute; reflexivity].
  unfold val. rewrite <- SF2R_B2SF. replace (B2SF incFactor) with (SpecFloat.S754_finite false 4722366482869645 (-72)) by (vm_compute; reflexivity).
  unfold SF2R, F2R. cbn [Defs.Fnum Defs.Fexp cond_Zopp]. change (bpow radix2 (-72)) with (/ 4722366482869645213696). reflexivity.
Qed.
Lemma inc_round (x : D) k : fin x -> (0 <= k <= 32767)%Z -> Rabs (val x - IZR k / 1000000) <= / 4000000 ->
  dlround (ddiv x incFactor) = Some k.
Proof.
  intros F K H. destruct incFactor_val as (V & _). set (g := val incFactor) in *.
  assert (K0 : 0 <= IZR k) by (apply (IZR_le 0); lia). assert (K1 : IZR k <= 32767) by (apply IZR_le; lia).
  assert (Q : Rabs (val x / g - IZR k) <= 0.2501).
  { replace (val x / g - IZR k) with ((val x - IZR k / 1000000) / g + IZR k * (/ 1000000 / g - 1)) by (rewrite V; field).
    eapply Rle_trans; [apply Rabs_triang|]. unfold Rdiv at 1. rewrite !Rabs_mult.
    rewrite (Rabs_pos_eq (/ g)), (Rabs_pos_eq (IZR k)), (Rabs_pos_eq (/ 1000000 / g - 1)) by (rewrite ?V; lra).
    apply Rle_trans with (/ 4000000 * / g + 32767 * (/ 1000000 / g - 1)); [|rewrite V; lra].
    apply Rplus_le_compat; [apply Rmult_le_compat_r; [rewrite V; lra|exact H]|].
    apply Rmult_le_compat_r; [rewrite V; lra|exact K1]. }
  assert (B : Rabs (val x / g) <= 32768).
  { replace (val x / g) with ((val x / g - IZR k) + IZR k) by ring. eapply Rle_trans; [apply Rabs_triang|]. rewrite (Rabs_pos_eq (IZR k)) by exact K0. lra. }
  destruct (rn_error (val x / g)) as (eps & eta & E1 & E2 & E3). rewrite b53 in E1. pose proof eta_small as (_ & E4).
  assert (RN : Rabs (rn (val x / g) - IZR k) <= 0.26).
  { rewrite E3. replace (val x / g * (1 + eps) + eta - IZR k) with ((val x / g - IZR k) + val x / g * eps + eta) by ring.
    eapply Rle_trans; [apply Rabs_triang|]. apply Rle_trans with (0.2501 + 32768 * / 9007199254740992 + / 1237940039285380274899124224); [|lra].
    apply Rplus_le_compat; [|lra]. eapply Rle_trans; [apply Rabs_triang|]. apply Rplus_le_compat; [exact Q|].
    rewrite Rabs_mult. apply Rmult_le_compat; try apply Rabs_pos; assumption. }
  assert (BB : Rabs (rn (val x / g)) <= 32768.26).
  { replace (rn (val x / g)) with ((rn (val x / g) - IZR k) + IZR k) by ring. eapply Rle_trans; [apply Rabs_triang|]. rewrite (Rabs_pos_eq (IZR k)) by exact K0. lra. }
  assert (P62 : bpow radix2 62 = 4611686018427387904) by reflexivity.
  destruct (ddiv_spec x incFactor) as (D1 & D2).
  { fold g. rewrite V. lra. }
  { fold g. apply Rle_lt_trans with (1 := BB). apply Rlt_le_trans with (bpow radix2 62); [rewrite P62; lra|apply bpow_le; lia]. }
  assert (FD : fin (ddiv x incFactor)) by (unfold fin; rewrite D2; exact F). fold g in D1.
  destruct (dlround_some _ FD) as (n & E & _); [rewrite D1, P62; lra|]. rewrite E. f_equal.
  destruct (dlround_near _ _ E) as (_ & N). rewrite D1 in N.
  assert (A : Rabs (IZR (n - k)) < 1).
  { rewrite minus_IZR. replace (IZR n - IZR k) with ((IZR n - rn (val x / g)) + (rn (val x / g) - IZR k)) by ring.
    eapply Rle_lt_trans; [apply Rabs_triang|]. lra. }
  rewrite <- abs_IZR in A. apply lt_IZR in A. lia.
Qed.
Lemma inc_value k : (0 <= k <= 32767)%Z ->
  fin (dmul incFactor (d_of_Z k)) /\ Rabs (val (dmul incFactor (d_of_Z k)) - IZR k / 1000000) <= IZR k / 1000000 * bpow radix2 (-51).
Proof.
  intros K. destruct incFactor_val as (V & F). assert (P53 : (2 ^ 53 = 9007199254740992)%Z) by reflexivity.
  destruct (d_of_Z_exact k ltac:(lia)) as (VK & FK).
  assert (K0 : 0 <= IZR k) by (apply (IZR_le 0); lia). assert (K1 : IZR k <= 32767) by (apply IZR_le; lia).
  destruct (Z.eq_dec k 0) as [->|NZ].
  { split; [vm_compute; reflexivity|]. replace (dmul incFactor (d_of_Z 0)) with (B754_zero false : D) by (vm_compute; reflexivity).
    unfold val. cbn [B2R]. unfold Rdiv. rewrite Rmult_0_l, Rminus_0_r, Rabs_R0. lra. }
  assert (K2 : 1 <= IZR k) by (apply (IZR_le 1); lia).
  destruct (rn_error (val incFactor * val (d_of_Z k))) as (eps & eta & E1 & E2 & E3). rewrite b53 in E1. pose proof eta_small as (_ & E4).
  rewrite V, VK in *. set (g := 4722366482869645 / 4722366482869645213696) in *.
  assert (G : / 1000001 <= g <= / 1000000 /\ / 1000000 - g <= / 10000000000000000000000) by (unfold g; lra).
  assert (BD : Rabs (rn (g * IZR k) - IZR k / 1000000) <= IZR k / 1000000 * / 2251799813685248).
  { rewrite E3. replace (g * IZR k * (1 + eps) + eta - IZR k / 1000000) with (- (IZR k * (/ 1000000 - g)) + g * IZR k * eps + eta) by field.
    eapply Rle_trans; [apply Rabs_triang|]. eapply Rle_trans; [apply Rplus_le_compat_r, Rabs_triang|].
    rewrite Rabs_Ropp, !Rabs_mult, (Rabs_pos_eq (IZR k)), (Rabs_pos_eq g), (Rabs_pos_eq (/ 1000000 - g)) by lra.
    assert (A1 : IZR k * (/ 1000000 - g) <= IZR k * / 10000000000000000000000) by (apply Rmult_le_compat_l; lra).
    assert (A2 : g * IZR k * Rabs eps <= / 1000000 * IZR k * / 9007199254740992).
    { apply Rmult_le_compat; [apply Rmult_le_pos; lra|apply Rabs_pos|apply Rmult_le_compat_r; lra|exact E1]. }
    lra. }
  destruct (dmul_spec incFactor (d_of_Z k)) as (D1 & D2).
  { rewrite V, VK. fold g. replace (rn (g * IZR k)) with ((rn (g * IZR k) - IZR k / 1000000) + IZR k / 1000000) by ring.
    eapply Rle_lt_trans; [apply Rabs_triang|]. rewrite (Rabs_pos_eq (IZR k / 1000000)) by lra.
    apply Rlt_le_trans with (bpow radix2 62); [change (bpow radix2 62) with 4611686018427387904; lra|apply bpow_le; lia]. }
  split; [unfold fin in *; rewrite D2, F, FK; reflexivity|]. rewrite D1, V, VK. fold g. change (bpow radix2 (-51)) with (/ 2251799813685248). exact BD.
Qed.
Close Scope R_scope.

(** ---- opening ---- *)
Lemma open_spec maxSize sizes f h nt ns : 3600 <= maxSize -> fits nt ns -> ns <= 32767 -> fsize f = trace_at ns nt ->
  (forall q, 0 <= q < 3600 -> fbyte f q = h q) -> rd16 h 3220 = ns ->
  open_file maxSize sizes f = Some (mkR ns nt (dmul incFactor (d_of_Z (rd16 h 3216))) (rd16 h 3224) (read_text (map h (zr 3200)))).
Proof.
  intros M F NS SZ H NSH. pose proof F as (N & NT & S64 & _). unfold open_file.
  pose proof (trace_at_ge ns nt ltac:(lia) NT) as GE. replace (3600 <=? fsize f) with true by lia.
  unfold objHO. destruct (contig_read_exact f maxSize sizes 0 getHOSz 0 (fun _ => 0) ltac:(lia) ltac:(unfold getHOSz; lia)) as (m & -> & A).
  cbn [obind]. assert (B : forall q, 0 <= q < 3600 -> m q = h q).
  { intros q Q. rewrite A. unfold getHOSz. replace (_ && _) with true by lia. rewrite <- H by exact Q. f_equal. lia. }
  assert (R : forall a, 0 <= a -> a + 1 < 3600 -> from_be_int16 (m a) (m (a + 1)) = rd16 h a) by (intros a A1 A2; unfold rd16; rewrite !B by lia; reflexivity).
  change (m 3221) with (m (3220 + 1)). change (m 3217) with (m (3216 + 1)). change (m 3225) with (m (3224 + 1)).
  assert (RN : read_ns (m 3220) (m (3220 + 1)) = ns).
  { change (read_ns (m 3220) (m (3220 + 1))) with (u64 (from_be_int16 (m 3220) (m (3220 + 1)))). rewrite R, NSH by lia. apply u64_small. unfold two64. lia. }
  rewrite RN, !R by lia.
  assert (G : getNt (fsize f) ns = Some nt).
  { rewrite SZ. replace (trace_at ns nt) with (getFileSz nt ns + 0) by (rewrite getFileSz_exact by exact F; unfold trace_at; lia).
    apply getNt_of_size; [exact F|rewrite getDOSz_exact by (unfold two64; lia); lia|]. rewrite getFileSz_exact by exact F. lia. }
  rewrite G. cbn [obind]. do 2 f_equal. unfold getTextSz. f_equal. apply map_ext_in. intros q Q. apply in_zr in Q. apply B. lia.
Qed.
(** the text of a header, as bytes *)
Lemma text_bytes t h : (length t <= 3200)%nat -> (forall q, 0 <= q < 3200 -> h q = nth (Z.to_nat q) t 0) -> map h (zr 3200) = t ++ repeat 0 (3200 - length t).
Proof.
  intros T H. apply (nth_ext _ _ 0 0).
  - rewrite map_length, app_length, repeat_length. unfold zr, zrange. rewrite map_length, seq_length. lia.
  - intros n N. rewrite map_length in N. unfold zr, zrange in *. rewrite map_length, seq_length in N.
    rewrite (nth_indep _ 0 (h 0)) by (rewrite !map_length, seq_length; exact N). rewrite map_nth.
    change 0 with (Z.of_nat 0) at 1. rewrite map_nth, seq_nth by exact N. rewrite Nat.add_0_l, H by lia. rewrite Nat2Z.id.
    destruct (lt_dec n (length t)); [rewrite app_nth1 by assumption; reflexivity|].
    rewrite app_nth2, (nth_overflow t) by lia. symmetry. apply nth_repeat.
Qed.
