(** Lemmas about the minmax program. *)
From Coq Require Import Reals Lra Permutation Sorted.
From Flocq Require Import Core IEEE754.BinarySingleNaN Relative.
From Verif Require Import Base DecompModel DecompSpec DecompProofs NumEncModel NumEncSpec NumEncProofs CharEncModel CharEncProofs LayoutModel LayoutProofs DataIOModel DataIOProofs
  RuleModel RuleProofs DoubleModel ParamModel ParamProofs HeaderProofs ScalarProofs FileSpec FileModel FileProofs WriteSpec WriteProofs RuleProperties ParamProperties ReadProofs OpenProofs FileProperties TraceProperties.
From Verif Require Import SortSpec SortModel SortProofs CompProofs MinMaxModel MinMaxProofs MinMaxProperties FloatModel SetOpsModel ToolModel ToolProperties CopySpec CopyProofs CopyProperties ExampleModel ExampleProofs PieceProofs CreateProofs ModModel ModSpec ModProofs.
From Verif Require SetSortProofs VerifyProofs.
From Verif Require Import SetSortSpec ExtremeModel ExtremeSpec.
Import ListNotations.
Open Scope Z_scope.

(** ---- coordinates that differ are read as doubles that differ the same way ---- *)
(** A coordinate is a fraction P / k. *)
Definition num_of (s i : Z) : Z := if s =? 0 then i else if 0 <? s then i * s else i.
Definition den_of (s : Z) : Z := if s =? 0 then 1 else if 0 <? s then 1 else - s.
Lemma den_range s : in_s16 s -> 1 <= den_of s <= 32768.
Proof. unfold in_s16, den_of. intros H. destruct (Z.eqb_spec s 0); [lia|]. destruct (Z.ltb_spec 0 s); lia. Qed.
Lemma num_range s i : in_s16 s -> in_s32 i -> Z.abs (num_of s i) <= 2 ^ 46 /\ (den_of s <> 1 -> Z.abs (num_of s i) <= 2 ^ 31) .
Proof.
  unfold in_s16, in_s32, num_of, den_of. intros H I. change (2 ^ 46) with 70368744177664. change (2 ^ 31) with 2147483648. destruct (Z.eqb_spec s 0); [lia|]. destruct (Z.ltb_spec 0 s); [|lia].
  split; [|lia]. rewrite Z.abs_mul. assert (Z.abs i * Z.abs s <= 2147483648 * 32767) by (apply Z.mul_le_mono_nonneg; lia). lia.
Qed.
Lemma coordinate_fraction h l : in_s16 (int16_at h 71) -> coordinate h l 71 = (IZR (num_of (int16_at h 71) (int32_at h l)) / IZR (den_of (int16_at h 71)))%R.
Proof.
  intros H. unfold coordinate, factor, num_of, den_of. destruct (Z.eqb_spec (int16_at h 71) 0); [lra|]. destruct (Z.ltb_spec 0 (int16_at h 71)); [rewrite mult_IZR; lra|reflexivity].
Qed.
Lemma fraction_gap a k1 b k2 : 1 <= k1 <= 32768 -> 1 <= k2 <= 32768 -> Z.abs a <= 2 ^ 46 -> Z.abs b <= 2 ^ 46 -> (k1 <> 1 -> Z.abs a <= 2 ^ 31) -> (k2 <> 1 -> Z.abs b <= 2 ^ 31) ->
  a * k2 < b * k1 -> Z.abs a * k2 + Z.abs b * k1 < 2 ^ 50 * (b * k1 - a * k2).
Proof.
  intros K1 K2 A B A1 B1 L. change (2 ^ 46) with 70368744177664 in *. change (2 ^ 31) with 2147483648 in *. change (2 ^ 50) with 1125899906842624.
  assert (AA : Z.abs a * k2 = Z.abs (a * k2)) by (rewrite Z.abs_mul; f_equal; lia). assert (BB : Z.abs b * k1 = Z.abs (b * k1)) by (rewrite Z.abs_mul; f_equal; lia).
  destruct (Z_le_gt_dec (Z.abs a) 4294967296) as [SA|SA]; destruct (Z_le_gt_dec (Z.abs b) 4294967296) as [SB|SB].
  - assert (Z.abs a * k2 <= 4294967296 * 32768) by (apply Z.mul_le_mono_nonneg; lia). assert (Z.abs b * k1 <= 4294967296 * 32768) by (apply Z.mul_le_mono_nonneg; lia). lia.
  - assert (k2 = 1) by (destruct (Z.eq_dec k2 1) as [E|E]; [exact E|specialize (B1 E); lia]). subst k2. rewrite Z.mul_1_r in *.
    destruct (Z.eq_dec k1 1) as [->|E]; [lia|]. specialize (A1 E). assert (4294967296 * k1 <= Z.abs b * k1) by (apply Z.mul_le_mono_nonneg_r; lia). lia.
  - assert (k1 = 1) by (destruct (Z.eq_dec k1 1) as [E|E]; [exact E|specialize (A1 E); lia]). subst k1. rewrite Z.mul_1_r in *.
    destruct (Z.eq_dec k2 1) as [->|E]; [lia|]. specialize (B1 E). assert (4294967296 * k2 <= Z.abs a * k2) by (apply Z.mul_le_mono_nonneg_r; lia). lia.
  - assert (k1 = 1) by (destruct (Z.eq_dec k1 1) as [E|E]; [exact E|specialize (A1 E); lia]). assert (k2 = 1) by (destruct (Z.eq_dec k2 1) as [E|E]; [exact E|specialize (B1 E); lia]). subst. lia.
Qed.
Lemma rn_relative x : (x = 0 \/ bpow radix2 (-100) <= Rabs x)%R -> exists e, (Rabs e <= bpow radix2 (-53))%R /\ rn x = (x * (1 + e))%R.
Proof.
  intros H. assert (P53 : Prec_gt_0 53) by reflexivity. destruct H as [->|H].
  - exists 0%R. split; [rewrite Rabs_R0; apply bpow_ge_0|]. unfold rn. rewrite round_0 by typeclasses eauto. ring.
  - destruct (relative_error_N_FLT_ex radix2 (-1074) 53 P53 (fun x => negb (Z.even x)) x) as (e & E1 & E2).
    + eapply Rle_trans; [apply bpow_le|exact H]. lia.
    + exists e. split; [|exact E2]. eapply Rle_trans; [exact E1|]. assert (B : (bpow radix2 (- (53) + 1) = 2 * bpow radix2 (-53))%R) by (rewrite bpow_plus_1; reflexivity). rewrite B. lra.
Qed.
Lemma read_close h l : in_s16 (int16_at h 71) -> in_s32 (int32_at h l) ->
  fin (read_coordinate h l) /\ (Rabs (val (read_coordinate h l) - coordinate h l 71) <= bpow radix2 (-51) * Rabs (coordinate h l 71))%R.
Proof.
  intros S I. destruct (VerifyProofs.coordinate_rn h l S I) as (F & V). split; [exact F|]. rewrite V. clear V F. destruct (parse_value _ S) as (_ & V & _).
  set (s := int16_at h 71) in *. set (i := int32_at h l) in *.
  assert (FE : exists e, (Rabs e <= bpow radix2 (-53))%R /\ val (parse_scalar s) = (factor s * (1 + e))%R /\ (bpow radix2 (-16) <= factor s)%R).
  { rewrite V. unfold factor. unfold in_s16 in S. destruct (Z.eqb_spec s 0).
    - exists 0%R. split; [rewrite Rabs_R0; apply bpow_ge_0|]. split; [ring|]. apply (bpow_le radix2 (-16) 0). lia.
    - destruct (Z.ltb_spec 0 s).
      + exists 0%R. split; [rewrite Rabs_R0; apply bpow_ge_0|]. split; [ring|]. apply Rle_trans with 1%R; [apply (bpow_le radix2 (-16) 0); lia|apply IZR_le; lia].
      + assert (K : (1 <= IZR (- s) <= 32768)%R) by (split; apply IZR_le; lia).
        assert (LO : (bpow radix2 (-16) <= / IZR (- s))%R). { assert (B : (bpow radix2 (-16) = / 65536)%R) by (cbn; lra). rewrite B. apply Rinv_le; lra. }
        assert (P : (0 < / IZR (- s))%R) by (apply Rinv_0_lt_compat; lra).
        destruct (rn_relative (1 / IZR (- s))) as (e & E1 & E2).
        { right. unfold Rdiv. rewrite Rmult_1_l, Rabs_pos_eq by lra. eapply Rle_trans; [apply bpow_le|exact LO]. lia. }
        exists e. split; [exact E1|]. split; [rewrite E2; unfold Rdiv; ring|exact LO]. }
  destruct FE as (e & E1 & E2 & FL). rewrite E2. unfold coordinate. fold s i. set (c := factor s) in *. pose proof (bpow_gt_0 radix2 (-16)) as P16.
  assert (E53 : (bpow radix2 (-53) = / 9007199254740992)%R) by (cbn; lra). rewrite E53 in E1. apply Rabs_le_inv in E1.
  destruct (rn_relative (c * (1 + e) * IZR i)) as (e' & E1' & E2').
  { destruct (Z.eq_dec i 0) as [->|NZ]; [left; ring|right]. rewrite !Rabs_mult, (Rabs_pos_eq c), (Rabs_pos_eq (1 + e)) by lra.
    assert (A : (1 <= Rabs (IZR i))%R) by (rewrite <- abs_IZR; apply IZR_le; lia).
    apply Rle_trans with (bpow radix2 (-16) * (/ 2) * 1)%R; [|apply Rmult_le_compat; [lra|lra|apply Rmult_le_compat; lra|exact A]].
    assert (B : (bpow radix2 (-17) = bpow radix2 (-16) * / 2)%R) by (assert (Q : (bpow radix2 (-16) = 2 * bpow radix2 (-17))%R) by (change (-16) with (-17 + 1); rewrite bpow_plus_1; reflexivity); rewrite Q; lra). rewrite <- B, Rmult_1_r.
    apply bpow_le. lia. }
  rewrite E2'. rewrite E53 in E1'. apply Rabs_le_inv in E1'.
  replace (c * (1 + e) * IZR i * (1 + e') - IZR i * c)%R with ((e + e' + e * e') * (IZR i * c))%R by ring. rewrite Rabs_mult. apply Rmult_le_compat_r; [apply Rabs_pos|].
  assert (E51 : (bpow radix2 (-51) = / 2251799813685248)%R) by (cbn; lra). rewrite E51.
  assert (EE : (Rabs (e * e') <= / 9007199254740992 * 1)%R) by (rewrite Rabs_mult; apply Rmult_le_compat; [apply Rabs_pos|apply Rabs_pos|apply Rabs_le; lra|apply Rabs_le; lra]).
  apply Rabs_le_inv in EE. apply Rabs_le. lra.
Qed.
(** Strictly smaller coordinates are read as strictly smaller doubles. *)
Lemma read_order h g l : in_s16 (int16_at h 71) -> in_s32 (int32_at h l) -> in_s16 (int16_at g 71) -> in_s32 (int32_at g l) ->
  (coordinate h l 71 < coordinate g l 71)%R -> (val (read_coordinate h l) < val (read_coordinate g l))%R.
Proof.
  intros S1 I1 S2 I2 L. destruct (read_close h l S1 I1) as (_ & C1). destruct (read_close g l S2 I2) as (_ & C2).
  rewrite (coordinate_fraction h l S1) in L, C1. rewrite (coordinate_fraction g l S2) in L, C2.
  pose proof (den_range _ S1) as K1. pose proof (den_range _ S2) as K2. destruct (num_range _ _ S1 I1) as (A1 & A2). destruct (num_range _ _ S2 I2) as (B1 & B2).
  set (a := num_of (int16_at h 71) (int32_at h l)) in *. set (k1 := den_of (int16_at h 71)) in *. set (b := num_of (int16_at g 71) (int32_at g l)) in *. set (k2 := den_of (int16_at g 71)) in *.
  clearbody a b k1 k2. set (x := val (read_coordinate h l)) in *. set (y := val (read_coordinate g l)) in *. clearbody x y. clear S1 I1 S2 I2 h g l.
  assert (R1 : (0 < IZR k1)%R) by (apply IZR_lt; lia). assert (R2 : (0 < IZR k2)%R) by (apply IZR_lt; lia).
  assert (LZ : a * k2 < b * k1).
  { apply lt_IZR. rewrite !mult_IZR. apply (Rmult_lt_compat_r (IZR k1 * IZR k2)) in L; [|apply Rmult_lt_0_compat; assumption].
    replace (IZR a / IZR k1 * (IZR k1 * IZR k2))%R with (IZR a * IZR k2)%R in L by (field; lra). replace (IZR b / IZR k2 * (IZR k1 * IZR k2))%R with (IZR b * IZR k1)%R in L by (field; lra). exact L. }
  pose proof (fraction_gap a k1 b k2 K1 K2 A1 B1 A2 B2 LZ) as G. apply IZR_lt in G. rewrite plus_IZR, !mult_IZR, minus_IZR, !mult_IZR, !abs_IZR in G. change (2 ^ 50) with 1125899906842624 in G.
  set (u := (IZR a / IZR k1)%R) in *. set (v := (IZR b / IZR k2)%R) in *.
  assert (UA : (Rabs u = Rabs (IZR a) / IZR k1)%R) by (unfold u, Rdiv; rewrite Rabs_mult, (Rabs_inv (IZR k1)), (Rabs_pos_eq (IZR k1)) by lra; reflexivity).
  assert (VB : (Rabs v = Rabs (IZR b) / IZR k2)%R) by (unfold v, Rdiv; rewrite Rabs_mult, (Rabs_inv (IZR k2)), (Rabs_pos_eq (IZR k2)) by lra; reflexivity).
  assert (GAP : (Rabs u + Rabs v < 1125899906842624 * (v - u))%R).
  { apply (Rmult_lt_reg_r (IZR k1 * IZR k2)); [apply Rmult_lt_0_compat; assumption|]. rewrite UA, VB. unfold u, v.
    replace ((Rabs (IZR a) / IZR k1 + Rabs (IZR b) / IZR k2) * (IZR k1 * IZR k2))%R with (Rabs (IZR a) * IZR k2 + Rabs (IZR b) * IZR k1)%R by (field; lra).
    replace (1125899906842624 * (IZR b / IZR k2 - IZR a / IZR k1) * (IZR k1 * IZR k2))%R with (1125899906842624 * (IZR b * IZR k1 - IZR a * IZR k2))%R by (field; lra). exact G. }
  assert (E51 : (bpow radix2 (-51) = / 2251799813685248)%R) by (cbn; lra). rewrite E51 in *. apply Rabs_le_inv in C1, C2. lra.
Qed.

(** ---- the life of a file whose ranks announce different things ---- *)
Lemma ranks_life maxSize p h f0 nt ns (hops : nat -> list wop) wr :
  (0 < p)%nat -> 3600 <= maxSize -> 2 * (240 + 4 * ns) <= maxSize -> fits nt ns -> file_bytes f0 ->
  (forall x, In x h -> (fst x < p)%nat) -> (forall r, (r < p)%nat -> rank_ops h r = hops r ++ wr r) ->
  (forall r o, (r < p)%nat -> In o (hops r) -> ~ writes o) -> (forall r n, (r < p)%nat -> In (WNt n) (hops r) -> 0 <= n <= nt) ->
  (forall r, (r < p)%nat -> w_err (local (hops r) w_init) = false /\ w_nsSet (local (hops r) w_init) = true /\ w_ns (local (hops r) w_init) = ns) ->
  (exists hd, FileModel.header (local (hops 0%nat) w_init) = Some hd) ->
  (forall r o, (r < p)%nat -> In o (wr r) -> good_write nt ns o) -> (forall r, (r < p)%nat -> wr r <> []) ->
  (exists f', written_file maxSize p h f0 f' nt ns) /\
  (forall r, (r < p)%nat -> w_text (rank_state h r) = w_text (local (hops r) w_init) /\ w_inc (rank_state h r) = w_inc (local (hops r) w_init)).
Proof.
  intros P M M2 F FB RK RO HW HN HL (hd & HD) GW NE.
  assert (WR : forall r o, (r < p)%nat -> In o (wr r) -> writes o) by (intros r o R I; specialize (GW r o R I); destruct o; try contradiction; exact Logic.I).
  assert (ST : forall r w d, (r < p)%nat -> wr r = w ++ d -> let s := local (hops r ++ w) w_init in w_ns s = ns /\ w_text s = w_text (local (hops r) w_init) /\ w_inc s = w_inc (local (hops r) w_init) /\ w_err s = false).
  { intros r w d R E. cbv zeta. rewrite local_app. destruct (local_writes w ltac:(intros o I; apply (WR r o R); rewrite E; apply in_or_app; left; exact I) (local (hops r) w_init)) as (A1 & A2 & A3 & A4 & A5).
    destruct (HL r R) as (HE & HS & HNS). rewrite A1, A2, A3, (A5 HS). auto. }
  assert (RS : forall r, (r < p)%nat -> rank_state h r = local (hops r ++ wr r) w_init) by (intros r R; unfold rank_state; rewrite RO by exact R; reflexivity).
  assert (SS : forall r, (r < p)%nat -> w_ns (rank_state h r) = ns /\ w_text (rank_state h r) = w_text (local (hops r) w_init) /\ w_inc (rank_state h r) = w_inc (local (hops r) w_init) /\ w_err (rank_state h r) = false).
  { intros r R. rewrite (RS r R). apply (ST r (wr r) [] R). symmetry. apply app_nil_r. }
  assert (OK : history_ok nt ns h).
  { intros h1 r o h2 E. destruct o as [| | | |sizes t trc prm skip]; try exact Logic.I. cbn [op_ok].
    assert (R : (r < p)%nat) by (apply (RK (r, WTrace sizes t trc prm skip)); rewrite E; apply in_or_app; right; left; reflexivity).
    pose proof (RO r R) as O. rewrite E, rank_ops_app in O. unfold rank_ops at 2 in O. cbn [filter fst] in O. rewrite Nat.eqb_refl in O. cbn [map snd] in O.
    destruct (split_prefix writes (hops r) _ _ _ (WTrace sizes t trc prm skip) (fun o => HW r o R) Logic.I O) as (w & W1 & W2). unfold rank_state. rewrite W1. change (fold_left (fun w0 o => wlocal o w0) (hops r ++ w) w_init) with (local (hops r ++ w) w_init).
    destruct (ST r w _ R W2) as (A & _). split; [exact A|]. assert (GI : good_write nt ns (WTrace sizes t trc prm skip)) by (apply (GW r _ R); rewrite W2; apply in_or_app; right; left; reflexivity).
    destruct GI as (G1 & _ & G3 & _). auto. }
  assert (IN : forall r o, In (r, o) h -> writes o -> good_write nt ns o).
  { intros r o I W. assert (R : (r < p)%nat) by exact (RK _ I). pose proof (in_rank_ops h r o I) as IO. rewrite (RO r R) in IO. apply in_app_or in IO. destruct IO as [IO|IO]; [destruct (HW r o R IO W)|apply (GW r o R IO)]. }
  assert (RUN : forall h2 h1 f, h = h1 ++ h2 -> exists f', run_from maxSize h1 h2 f = Some f').
  { induction h2 as [|[r o] h2 IH]; intros h1 f E; [cbn; eauto|]. cbn [run_from].
    assert (I : In (r, o) h) by (rewrite E; apply in_or_app; right; left; reflexivity).
    assert (WS : exists f1, wfile maxSize o (w_ns (rank_state h1 r)) f = Some f1).
    { destruct o as [| | | |sizes t trc prm skip]; cbn [wfile]; eauto. pose proof (OK h1 r _ h2 E) as (-> & _).
      destruct (write_some maxSize nt ns sizes t trc prm skip f M2 F (IN r _ I Logic.I)) as (x & ->). cbn. eauto. }
    destruct WS as (f1 & ->). cbn [obind]. apply IH. rewrite <- app_assoc. exact E. }
  assert (WB : well_behaved nt ns h p).
  { intros r R. destruct (SS r R) as (A1 & _ & _ & A4). split; [|auto]. rewrite (RO r R). exists (hops r), (wr r). split; [reflexivity|]. split; [exact (fun o => HW r o R)|]. split; [exact (fun n => HN r n R)|].
    intros o I. specialize (GW r o R I). destruct o; try contradiction. split; [auto|apply GW]. }
  assert (AW : all_write h p).
  { intros r R. destruct (wr r) as [|o l] eqn:E; [destruct (NE r R E)|]. exists o. rewrite (RO r R), E. split; [apply in_or_app; right; left; reflexivity|].
    apply (WR r o R). rewrite E. left. reflexivity. }
  assert (H0 : exists hd, FileModel.header (rank_state h 0) = Some hd).
  { destruct (SS 0%nat P) as (A1 & A2 & A3 & _). destruct (HL 0%nat P) as (_ & _ & HNS). exists hd. unfold FileModel.header in *. rewrite A3. destruct (dlround _) as [k|] in *; [|discriminate]. cbn [obind] in *. injection HD as <-. f_equal. f_equal. unfold header_writes. rewrite A2, A1, HNS. reflexivity. }
  split; [|intros r R; destruct (SS r R) as (_ & A2 & A3 & _); auto].
  destruct (RUN h [] f0 eq_refl) as (f1 & R1). destruct (C39_size_after_close_partial maxSize p h f1 nt ns P M F WB AW H0) as (f' & C & _).
  exists f'. constructor; try assumption; [auto|]. unfold write_file, run. rewrite R1. cbn [obind]. exact C.
Qed.
