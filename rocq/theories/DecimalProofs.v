(** Coordinates with at most four decimals: what the header holds and what is read back. *)
From Coq Require Import Reals Lra Lia.
From Flocq Require Import Core IEEE754.BinarySingleNaN.
From Verif Require Import Base DoubleModel ParamModel ScalarProofs DecimalSpec.
Import ListNotations.
Open Scope Z_scope.

Lemma dec_val n v : decimal n v <-> fin v /\ (Rabs (val v - IZR n / 10000) <= / 2251799813685248 * Rabs (IZR n / 10000))%R /\ (Z.rem n 625 = 0 -> val v = (IZR n / 10000)%R).
Proof. reflexivity. Qed.
(** The scale that n ten-thousandths need. *)
Definition sc (n : Z) : Z :=
  if Z.rem n 10000 =? 0 then 1 else if Z.rem n 1000 =? 0 then -10 else if Z.rem n 100 =? 0 then -100
  else if Z.rem n 10 =? 0 then -1000 else -10000.

Lemma sc_ok n : ok_scale (sc n).
Proof. unfold sc, ok_scale. repeat (destruct (_ =? 0)); tauto. Qed.
Lemma rem_mult n a b : 0 < a -> 0 < b -> Z.rem n (a * b) = 0 -> Z.rem n a = 0.
Proof. intros A B H. apply Z.rem_divide in H; [|lia]. apply Z.rem_divide; [lia|]. destruct H as (k & ->). exists (k * b). ring. Qed.
Lemma sc_divides n s : ok_scale s -> s <= sc n -> exists N, N * 10000 = n * den s /\ Z.abs N <= Z.abs n.
Proof.
  intros O L. assert (D : forall q, 0 < q -> Z.rem n q = 0 -> exists k, n = k * q) by (intros q Q H; apply Z.rem_divide in H; [exact H|lia]).
  unfold sc in L. destruct (Z.eqb_spec (Z.rem n 10000) 0) as [E|_].
  - destruct (D 10000 ltac:(lia) E) as (k & ->). exists (k * den s). unfold den, ok_scale in *. destruct (Z.eqb_spec s 1); split; lia.
  - destruct (Z.eqb_spec (Z.rem n 1000) 0) as [E|_].
    + destruct (D 1000 ltac:(lia) E) as (k & ->). unfold den, ok_scale in *. destruct (Z.eqb_spec s 1); [lia|]. destruct O as [->|[->|[->|[->| ->]]]]; try lia; [exists k|exists (k * 10)|exists (k * 100)|exists (k * 1000)]; lia.
    + destruct (Z.eqb_spec (Z.rem n 100) 0) as [E|_].
      * destruct (D 100 ltac:(lia) E) as (k & ->). unfold den, ok_scale in *. destruct (Z.eqb_spec s 1); [lia|]. destruct O as [->|[->|[->|[->| ->]]]]; try lia; [exists k|exists (k * 10)|exists (k * 100)]; lia.
      * destruct (Z.eqb_spec (Z.rem n 10) 0) as [E|_].
        -- destruct (D 10 ltac:(lia) E) as (k & ->). unfold den, ok_scale in *. destruct (Z.eqb_spec s 1); [lia|]. destruct O as [->|[->|[->|[->| ->]]]]; try lia; [exists k|exists (k * 10)]; lia.
        -- unfold den, ok_scale in *. destruct (Z.eqb_spec s 1); [lia|]. destruct O as [->|[->|[->|[->| ->]]]]; try lia. exists n. lia.
Qed.

Lemma den_pos s : ok_scale s -> 1 <= den s <= 10000.
Proof. intros [->|[->|[->|[->| ->]]]]; cbn; lia. Qed.

Lemma s32_same z : in_s32 z -> s32 z = z.
Proof. unfold in_s32, s32, two32. intros H. rewrite Z.mod_small; lia. Qed.
Lemma fits_size n s : ok_scale s -> fits n s -> Z.abs n <= 21474836480000.
Proof. intros O (N & E & H). unfold in_s32 in H. unfold den, ok_scale in *. destruct (Z.eqb_spec s 1); lia. Qed.
Lemma fits_sc n s : ok_scale s -> fits n s -> s <= sc n.
Proof.
  intros O (N & E & _). assert (D : forall q k, 0 < q -> n = k * q -> Z.rem n q = 0) by (intros q k Q ->; apply Z.rem_mul; lia).
  unfold sc. destruct (Z.eqb_spec (Z.rem n 10000) 0) as [_|E0]; [unfold ok_scale in O; lia|].
  assert (s <> 1) by (intros ->; apply E0; apply (D 10000 N); cbn in E; lia).
  destruct (Z.eqb_spec (Z.rem n 1000) 0) as [_|E3]; [unfold ok_scale in O; lia|].
  assert (s <> -10) by (intros ->; apply E3; apply (D 1000 N); change (den (-10)) with 10 in E; lia).
  destruct (Z.eqb_spec (Z.rem n 100) 0) as [_|E2]; [unfold ok_scale in O; lia|].
  assert (s <> -100) by (intros ->; apply E2; apply (D 100 N); change (den (-100)) with 100 in E; lia).
  destruct (Z.eqb_spec (Z.rem n 10) 0) as [_|E1]; [unfold ok_scale in O; lia|].
  assert (s <> -1000) by (intros ->; apply E1; apply (D 10 N); change (den (-1000)) with 1000 in E; lia).
  unfold ok_scale in O; lia.
Qed.
Lemma fits_coarser n s s' : ok_scale s -> ok_scale s' -> s <= s' -> s' <= sc n -> fits n s -> fits n s'.
Proof.
  intros O O' L L' (N & E & H). destruct (sc_divides n s' O' L') as (N' & E' & _). exists N'. split; [exact E'|].
  assert (den s' <= den s) by (unfold den, ok_scale in *; destruct (Z.eqb_spec s 1), (Z.eqb_spec s' 1); lia). pose proof (den_pos s' O') as P'.
  assert (Z.abs N' <= Z.abs N /\ (0 <= N -> 0 <= N')) as (A & B).
  { assert (Z.abs (N' * 10000) <= Z.abs (N * 10000)) by (rewrite E, E', !Z.abs_mul; apply Z.mul_le_mono_nonneg_l; lia).
    assert (0 <= N -> 0 <= n) by (intros; assert (0 <= n * den s) by lia; destruct (Z_lt_le_dec n 0); [|assumption]; assert (n * den s <= n * 1) by (apply Z.mul_le_mono_nonpos_l; lia); lia).
    split; [lia|]. intros N0. assert (0 <= n * den s') by (apply Z.mul_nonneg_nonneg; lia). lia. }
  assert (N <= 0 -> N' <= 0) as C.
  { intros N0. assert (n <= 0) by (destruct (Z_lt_le_dec 0 n); [|assumption]; assert (n * 1 <= n * den s) by (apply Z.mul_le_mono_nonneg_l; lia); lia).
    assert (n * den s' <= 0) by (apply Z.mul_nonpos_nonneg; lia). lia. }
  unfold in_s32 in *. lia.
Qed.

(** The scale factors as doubles: never below the exact power of ten, and very close. *)
Lemma parse_close s : ok_scale s -> fin (parse_scalar s) /\ (1 <= val (parse_scalar s) * IZR (den s) <= 1 + / 18014398509481984)%R.
Proof.
  assert (SF : forall m e, B2SF (parse_scalar s) = SpecFloat.S754_finite false m e -> fin (parse_scalar s) /\ val (parse_scalar s) = (IZR (Zpos m) * bpow radix2 e)%R).
  { intros m e H. split; [unfold fin; rewrite <- is_finite_SF_B2SF, H; reflexivity|]. unfold val. rewrite <- SF2R_B2SF, H. reflexivity. }
  intros [->|[->|[->|[->| ->]]]].
  - destruct (d_of_Z_exact 1 ltac:(cbn; lia)) as (V & F). rewrite parse1. split; [exact F|]. rewrite V. cbn. lra.
  - destruct (SF 7205759403792794%positive (-56)) as (F & V); [vm_compute; reflexivity|]. split; [exact F|]. rewrite V. change (den (-10)) with 10. change (bpow radix2 (-56)) with (/ 72057594037927936)%R. lra.
  - destruct (SF 5764607523034235%positive (-59)) as (F & V); [vm_compute; reflexivity|]. split; [exact F|]. rewrite V. change (den (-100)) with 100. change (bpow radix2 (-59)) with (/ 576460752303423488)%R. lra.
  - destruct (SF 4611686018427388%positive (-62)) as (F & V); [vm_compute; reflexivity|]. split; [exact F|]. rewrite V. change (den (-1000)) with 1000. change (bpow radix2 (-62)) with (/ 4611686018427387904)%R. lra.
  - destruct (SF 7378697629483821%positive (-66)) as (F & V); [vm_compute; reflexivity|]. split; [exact F|]. rewrite V. change (den (-10000)) with 10000. change (bpow radix2 (-66)) with (/ 73786976294838206464)%R. lra.
Qed.
(** Rounding to the nearest integer what is close to one. *)
Lemma near_round x z : fin x -> (Rabs (val x - IZR z) < / 2)%R -> in_s64 z -> dlround x = Some z.
Proof.
  intros F V H. pose proof (lr_raw_near x F) as N.
  assert (lr_raw x = z) as E.
  { assert (Z.abs (lr_raw x - z) < 1); [|lia]. apply lt_IZR. rewrite abs_IZR, minus_IZR. replace (IZR (lr_raw x) - IZR z)%R with ((IZR (lr_raw x) - val x) + (val x - IZR z))%R by ring. eapply Rle_lt_trans; [apply Rabs_triang|]. lra. }
  rewrite dlround_raw, E by exact F. unfold in_s64 in H. replace (_ && _) with true by lia. reflexivity.
Qed.
(** The nearest double of a number close to an integer below 2^45. *)
Lemma rn_close t N : Z.abs N <= 35184372088832 -> (Rabs (t - IZR N) <= / 64)%R -> (Rabs (rn t - IZR N) < / 4)%R /\ (Rabs (rn t) < bpow radix2 1024)%R.
Proof.
  intros HN H. assert (HN' : (Rabs (IZR N) <= 35184372088832)%R) by (rewrite <- abs_IZR; apply IZR_le; lia).
  destruct (rn_error t) as (eps & eta & E1 & E2 & E3). rewrite b53 in E1. pose proof eta_small as E0.
  assert (T : (Rabs t <= 35184372088833)%R). { replace t with ((t - IZR N) + IZR N)%R by ring. eapply Rle_trans; [apply Rabs_triang|]. lra. }
  assert (M : (Rabs (t * eps) <= 35184372088833 * / 9007199254740992)%R) by (rewrite Rabs_mult; apply Rmult_le_compat; try apply Rabs_pos; assumption).
  assert (C : (Rabs (rn t - IZR N) < / 4)%R).
  { rewrite E3. replace (t * (1 + eps) + eta - IZR N)%R with ((t - IZR N) + t * eps + eta)%R by ring. eapply Rle_lt_trans; [apply Rabs_triang|]. eapply Rle_lt_trans; [apply Rplus_le_compat_r, Rabs_triang|]. lra. }
  split; [exact C|]. apply Rle_lt_trans with (bpow radix2 60); [|apply bpow_lt; lia]. replace (rn t) with ((rn t - IZR N) + IZR N)%R by ring. eapply Rle_trans; [apply Rabs_triang|]. cbn. lra.
Qed.

(** v times 10000 *)
Lemma times_10000 n v : Z.abs n <= 21474836480000 -> decimal n v -> dlround (dmul v (d_of_Z 10000)) = Some n.
Proof.
  intros H Dv. apply (proj1 (dec_val n v)) in Dv. destruct Dv as (F & C & _). assert (HN : Z.abs n <= 35184372088832) by lia. assert (HN' : (Rabs (IZR n) <= 21474836480000)%R) by (rewrite <- abs_IZR; apply IZR_le; lia).
  destruct (d_of_Z_exact 10000 ltac:(cbn; lia)) as (V4 & F4).
  assert (CL : (Rabs (val v * 10000 - IZR n) <= / 64)%R).
  { replace (val v * 10000 - IZR n)%R with ((val v - IZR n / 10000) * 10000)%R by field. rewrite Rabs_mult, (Rabs_pos_eq 10000) by lra.
    assert (Rabs (IZR n / 10000) = Rabs (IZR n) / 10000)%R as Q by (unfold Rdiv; rewrite Rabs_mult, (Rabs_pos_eq (/ 10000)) by lra; reflexivity). rewrite Q in C. lra. }
  destruct (rn_close (val v * 10000) n HN CL) as (R1 & R2).
  destruct (dmul_spec v (d_of_Z 10000)) as (VM & FM); [rewrite V4; exact R2|].
  apply near_round; [unfold fin; rewrite FM, F, F4; reflexivity|rewrite VM, V4; lra|unfold in_s64; lia].
Qed.
(** v divided by a scale that is fine enough *)
Lemma div_scale n v s N : decimal n v -> ok_scale s -> N * 10000 = n * den s -> in_s32 N ->
  dlround (ddiv v (parse_scalar s)) = Some N.
Proof.
  intros Dv O E H. apply (proj1 (dec_val n v)) in Dv. destruct Dv as (F & C & _). assert (HN : Z.abs N <= 2147483648) by (unfold in_s32 in H; lia). assert (HN' : (Rabs (IZR N) <= 2147483648)%R) by (rewrite <- abs_IZR; apply IZR_le; lia).
  destruct (parse_close s O) as (Fg & G). pose proof (den_pos s O) as DP. set (g := val (parse_scalar s)) in *. set (P := IZR (den s)) in *.
  assert (P1 : (1 <= P <= 10000)%R) by (unfold P; split; apply IZR_le; lia).
  assert (G0 : (0 < g)%R). { apply Rmult_lt_reg_r with P; [lra|]. rewrite Rmult_0_l. lra. }
  assert (X : (IZR n / 10000 = IZR N / P)%R). { assert (IZR N * 10000 = IZR n * P)%R by (unfold P; rewrite <- !mult_IZR; f_equal; exact E). apply (Rmult_eq_reg_r (10000 * P)); [|nra]. field_simplify; lra. }
  set (x := (IZR n / 10000)%R) in *. assert (XN : (IZR N = x * P)%R) by (rewrite X; field; lra).
  set (e := (val v - x)%R) in *. set (t := (val v / g)%R).
  assert (T : (t * (g * P) = IZR N + e * P)%R) by (unfold t, e; rewrite XN; field; lra).
  set (h := (g * P)%R) in *.
  assert (EP : (Rabs (e * P) <= / 2251799813685248 * Rabs (IZR N))%R).
  { rewrite XN, !Rabs_mult. rewrite <- Rmult_assoc. apply Rmult_le_compat_r; [apply Rabs_pos|exact C]. }
  assert (NH : (Rabs (IZR N * (h - 1)) <= Rabs (IZR N) * / 18014398509481984)%R) by (rewrite Rabs_mult; apply Rmult_le_compat_l; [apply Rabs_pos|rewrite Rabs_pos_eq; lra]).
  assert (TN : (Rabs (t - IZR N) <= / 64)%R).
  { assert (Rabs ((t - IZR N) * h) <= / 64)%R as Q.
    { replace ((t - IZR N) * h)%R with (e * P - IZR N * (h - 1))%R by (rewrite Rmult_minus_distr_r, T; ring). unfold Rminus. eapply Rle_trans; [apply Rabs_triang|]. rewrite Rabs_Ropp. fold (h - 1)%R. lra. }
    rewrite Rabs_mult, (Rabs_pos_eq h) in Q by lra. pose proof (Rabs_pos (t - IZR N)). assert (Rabs (t - IZR N) * 1 <= Rabs (t - IZR N) * h)%R by (apply Rmult_le_compat_l; lra). lra. }
  destruct (rn_close t N ltac:(lia) TN) as (R1 & R2).
  destruct (ddiv_spec v (parse_scalar s)) as (VD & FD); [fold g; lra|exact R2|].
  apply near_round; [unfold fin; rewrite FD; exact F|rewrite VD; fold g; fold t; lra|unfold in_s64; lia].
Qed.

(** The integer part. *)
Lemma trunc_dec n v : Z.abs n <= 21474836480000 -> decimal n v -> dtrunc v = Some (Z.quot n 10000).
Proof.
  intros H Dv. apply (proj1 (dec_val n v)) in Dv. destruct Dv as (F & C & X). assert (HN' : (Rabs (IZR n) <= 21474836480000)%R) by (rewrite <- abs_IZR; apply IZR_le; lia).
  pose proof (Z.quot_rem' n 10000) as QR. pose proof (Z.rem_bound_abs n 10000 ltac:(lia)) as RB. change (Z.abs 10000) with 10000 in RB.
  set (a := Z.quot n 10000) in *. set (r := Z.rem n 10000) in *. assert (AB : Z.abs a <= 2147483649) by lia.
  destruct (Z.eq_dec r 0) as [R0|RN].
  - apply dtrunc_int; [exact F| |change (2 ^ 62) with 4611686018427387904; lia]. rewrite X.
    + rewrite QR, R0, Z.add_0_r, mult_IZR. field.
    + apply (rem_mult n 625 16); [clear; lia|clear; lia|exact R0].
  - assert (Q : (Rabs (IZR n / 10000) = Rabs (IZR n) / 10000)%R) by (unfold Rdiv; rewrite Rabs_mult, (Rabs_pos_eq (/ 10000)) by lra; reflexivity). rewrite Q in C.
    assert (CL : (Rabs (val v - IZR n / 10000) <= / 100000)%R) by lra. apply Rabs_le_inv in CL.
    assert (NV : (IZR n = 10000 * IZR a + IZR r)%R) by (rewrite <- mult_IZR, <- plus_IZR; f_equal; lia).
    assert (SG : (0 < n /\ 1 <= r <= 9999 /\ 0 <= a) \/ (n < 0 /\ -9999 <= r <= -1 /\ a <= 0)).
    { destruct (Z_lt_le_dec 0 n) as [P|P].
      - left. pose proof (Z.rem_nonneg n 10000 ltac:(lia) ltac:(lia)). pose proof (Z.quot_pos n 10000 ltac:(lia) ltac:(lia)). fold r in H0. fold a in H1. lia.
      - right. pose proof (Z.rem_nonpos n 10000 ltac:(lia) ltac:(lia)) as U. fold r in U. assert (a <= 0) by lia. lia. }
    assert (BV : (Rabs (val v) <= bpow radix2 62)%R).
    { apply Rle_trans with 21474836480000%R; [|cbn; lra]. apply Rabs_le. apply Rabs_le_inv in HN'. lra. }
    destruct (dtrunc_bound v F BV) as (t & -> & T1 & T2). f_equal. apply Rabs_lt_inv in T2.
    destruct SG as [(P & R1 & A0)|(P & R1 & A0)].
    + assert (1 <= IZR r <= 9999)%R by (split; apply IZR_le; lia). assert (0 <= IZR a)%R by (apply IZR_le; lia).
      rewrite (Rabs_pos_eq (val v)) in T1 by lra. assert (TU := Rle_trans _ _ _ (Rle_abs (IZR t)) T1).
      assert (IZR t < IZR (a + 1))%R as L1 by (rewrite plus_IZR; lra). assert (IZR (a - 1) < IZR t)%R as L2 by (rewrite minus_IZR; lra). apply lt_IZR in L1, L2. lia.
    + assert (-9999 <= IZR r <= -1)%R by (split; apply IZR_le; lia). assert (IZR a <= 0)%R by (apply IZR_le; lia).
      rewrite (Rabs_left1 (val v)) in T1 by lra. assert (TU : (- IZR t <= - val v)%R) by (eapply Rle_trans; [|exact T1]; rewrite <- Rabs_Ropp; apply Rle_abs).
      assert (IZR t < IZR (a + 1))%R as L1 by (rewrite plus_IZR; lra). assert (IZR (a - 1) < IZR t)%R as L2 by (rewrite minus_IZR; lra). apply lt_IZR in L1, L2. lia.
Qed.

(** The scale found for n ten-thousandths. *)
Lemma find_scalar_dec n v : fits n (sc n) -> decimal n v -> find_scalar v = Some (sc n).
Proof.
  intros FT Dv. pose proof (fits_size n _ (sc_ok n) FT) as H. unfold find_scalar. rewrite (trunc_dec n v H Dv). cbn [obind].
  set (a := Z.quot n 10000). assert (AB : Z.abs a <= Z.abs n). { unfold a. rewrite <- Z.quot_abs by lia. apply Z.quot_le_upper_bound; lia. }
  assert (S : s32 a = a).
  { apply s32_same. destruct FT as (N & E & HN). unfold in_s32 in *. unfold a. clear - E HN. pose proof (den_pos _ (sc_ok n)) as P. unfold sc, den in *. pose proof (Z.quot_rem' n 10000) as QR.
    destruct (Z.eqb_spec (Z.rem n 10000) 0) as [R|_]; [cbn in E; lia|]. pose proof (Z.rem_bound_abs n 10000 ltac:(lia)). set (q := Z.quot n 10000) in *. clearbody q.
    repeat match type of E with context [if ?b then _ else _] => destruct b end; cbn in E; lia. }
  rewrite S, Z.eqb_refl. cbn [negb].
  rewrite (times_10000 n v H Dv). cbn [obind].
  assert (DG : n - a * 10000 = Z.rem n 10000) by (pose proof (Z.quot_rem' n 10000); unfold a; lia). rewrite DG. cbv zeta. unfold sc.
  assert (RR : forall q b, 0 < q -> 0 < b -> Z.rem (Z.rem n (q * b)) q = 0 <-> Z.rem n q = 0).
  { intros q b Q B. pose proof (Z.quot_rem' n (q * b)) as X. set (k := Z.quot n (q * b)) in *. set (r := Z.rem n (q * b)) in *.
    rewrite !Z.rem_divide by lia. rewrite X. split; intros (u & U); [exists (b * k + u)|exists (u - b * k)]; lia. }
  unfold sc in FT. destruct (Z.eqb_spec (Z.rem n 10000) 0) as [E0|E0]; [reflexivity|].
  assert (LAST : forall i N, (i = 1 /\ N = n) \/ (i = 10 /\ N * 10 = n) \/ (i = 100 /\ N * 100 = n) \/ (i = 1000 /\ N * 1000 = n) -> in_s32 N ->
     dlround (ddiv v (parse_scalar (s16 (Z.quot (-10000) i)))) = Some N /\ Z.quot (s32 N) (- s16 (Z.quot (-10000) i)) = a).
  { intros i N C IN. split.
    - apply (div_scale n); [exact Dv|..]; unfold ok_scale; destruct C as [(-> & <-)|[(-> & <-)|[(-> & <-)|(-> & <-)]]];
      repeat match goal with |- context [s16 ?x] => let y := eval vm_compute in (s16 x) in change (s16 x) with y end; unfold den; cbn [Z.eqb]; try tauto; try lia.
    - rewrite (s32_same N IN). unfold a.
      destruct C as [(-> & <-)|[(-> & <-)|[(-> & <-)|(-> & <-)]]]; repeat match goal with |- context [s16 ?x] => let y := eval vm_compute in (s16 x) in change (s16 x) with y end; cbn [Z.opp].
      + reflexivity.
      + change 10000 with (1000 * 10). rewrite Z.quot_mul_cancel_r by lia. reflexivity.
      + change 10000 with (100 * 100). rewrite Z.quot_mul_cancel_r by lia. reflexivity.
      + change 10000 with (10 * 1000). rewrite Z.quot_mul_cancel_r by lia. reflexivity. }
  assert (R10 : Z.rem (Z.rem n 10000) 10 = 0 <-> Z.rem n 10 = 0) by (apply (RR 10 1000); clear; lia).
  assert (R100 : Z.rem (Z.rem n 10000) 100 = 0 <-> Z.rem n 100 = 0) by (apply (RR 100 100); clear; lia).
  assert (R1000 : Z.rem (Z.rem n 10000) 1000 = 0 <-> Z.rem n 1000 = 0) by (apply (RR 1000 10); clear; lia).
  assert (STEP : forall i l N, (i = 1 /\ N = n) \/ (i = 10 /\ N * 10 = n) \/ (i = 100 /\ N * 100 = n) \/ (i = 1000 /\ N * 1000 = n) -> in_s32 N -> Z.rem (Z.rem n 10000) (i * 10) <> 0 -> small_scale v a (Z.rem n 10000) (i :: l) = Some (s16 (Z.quot (-10000) i))).
  { intros i l N C IN NE. destruct (LAST i N C IN) as (L1 & L2). cbn [small_scale]. destruct (Z.eqb_spec (Z.rem (Z.rem n 10000) (i * 10)) 0); [congruence|]. cbv zeta. rewrite L1. cbn [obind]. rewrite L2, Z.eqb_refl. reflexivity. }
  destruct (Z.eqb_spec (Z.rem n 1000) 0) as [E3|E3].
  - assert (E2 : Z.rem n 100 = 0) by (apply (rem_mult n 100 10); [clear; lia|clear; lia|exact E3]). assert (E1 : Z.rem n 10 = 0) by (apply (rem_mult n 10 100); [clear; lia|clear; lia|exact E3]). destruct FT as (N & EN0 & IN). change (den (-10)) with 10 in EN0. assert (EN : N * 1000 = n) by (clear - EN0; lia).
    cbn [small_scale]. change (1 * 10) with 10. change (10 * 10) with 100. change (100 * 10) with 1000. rewrite (proj2 R10 E1), (proj2 R100 E2), (proj2 R1000 E3). cbn [Z.eqb].
    pose proof (STEP 1000 [] N (or_intror (or_intror (or_intror (conj eq_refl EN)))) IN) as ST. cbn [small_scale] in ST. rewrite ST; [reflexivity|]. change (1000 * 10) with 10000. rewrite Z.rem_rem by (clear; lia). exact E0.
  - destruct (Z.eqb_spec (Z.rem n 100) 0) as [E2|E2].
    + assert (E1 : Z.rem n 10 = 0) by (apply (rem_mult n 10 10); [clear; lia|clear; lia|exact E2]). destruct FT as (N & EN0 & IN). change (den (-100)) with 100 in EN0. assert (EN : N * 100 = n) by (clear - EN0; lia).
      pose proof (STEP 100 [1000] N (or_intror (or_intror (or_introl (conj eq_refl EN)))) IN) as ST.
      cbn [small_scale] in *. change (1 * 10) with 10 in *. change (10 * 10) with 100 in *. change (100 * 10) with 1000 in *. rewrite (proj2 R10 E1), (proj2 R100 E2). cbn [Z.eqb]. rewrite ST; [reflexivity|]. rewrite R1000. exact E3.
    + destruct (Z.eqb_spec (Z.rem n 10) 0) as [E1|E1].
      * destruct FT as (N & EN0 & IN). change (den (-1000)) with 1000 in EN0. assert (EN : N * 10 = n) by (clear - EN0; lia). pose proof (STEP 10 [100; 1000] N (or_intror (or_introl (conj eq_refl EN))) IN) as ST.
        cbn [small_scale] in *. change (1 * 10) with 10 in *. change (10 * 10) with 100 in *. rewrite (proj2 R10 E1). cbn [Z.eqb]. rewrite ST; [reflexivity|]. rewrite R100. exact E2.
      * destruct FT as (N & EN0 & IN). change (den (-10000)) with 10000 in EN0. assert (N = n) by (clear - EN0; lia). subst N. pose proof (STEP 1 [10; 100; 1000] n (or_introl (conj eq_refl eq_refl)) IN) as ST. rewrite ST; [reflexivity|]. change (1 * 10) with 10. rewrite R10. exact E1.
Qed.

(** Several scales combined: the finest. *)
Lemma combine_ok : forall cs s, ok_scale s -> Forall ok_scale cs -> ok_scale (fold_left combine cs s) /\ fold_left combine cs s <= s /\ Forall (fun c => fold_left combine cs s <= c) cs.
Proof.
  induction cs as [|c cs IH]; intros s Hs H; [cbn; split; [exact Hs|split; [lia|constructor]]|]. inversion H as [|? ? Hc Hcs]; subst. cbn [fold_left].
  assert (K : combine s c = Z.min s c) by (unfold combine; replace ((1 <? s) || (1 <? c)) with false; [reflexivity|unfold ok_scale in *; lia]).
  assert (KO : ok_scale (combine s c)) by (rewrite K; unfold ok_scale in *; lia).
  destruct (IH (combine s c) KO Hcs) as (I1 & I2 & I3). split; [exact I1|]. rewrite K in *. split; [lia|]. constructor; [lia|exact I3].
Qed.

(** Rounding up a little does not leave a number of few bits. *)
Lemma rn_keeps x y : generic_format radix2 fx x -> (0 < x)%R -> (x <= y <= x + x * / 18014398509481984)%R -> rn y = x.
Proof.
  intros G X Y. apply Rle_antisym.
  - apply round_N_le_midp; [apply fx_valid|exact G|]. rewrite succ_eq_pos by lra.
    assert (U : (x * / 9007199254740992 < ulp radix2 fx x)%R).
    { rewrite ulp_neq_0 by lra. unfold cexp. pose proof (bpow_mag_gt radix2 x) as M. rewrite Rabs_pos_eq in M by lra.
      apply Rlt_le_trans with (bpow radix2 (mag radix2 x - 53)); [|apply bpow_le; unfold fx, FLT_exp; lia].
      unfold Z.sub. rewrite bpow_plus. change (bpow radix2 (- (53))) with (/ 9007199254740992)%R. apply Rmult_lt_compat_r; [lra|exact M]. }
    lra.
  - assert (rn x = x) as E by (apply round_generic; [apply valid_rnd_N|exact G]). rewrite <- E at 1. apply round_le; [apply fx_valid|apply valid_rnd_N|lra].
Qed.
Lemma rn_opp y : rn (- y) = (- rn y)%R.
Proof. unfold rn. apply round_NE_opp. Qed.

(** What is read back from N at scale s. *)
Lemma read_back n s N : ok_scale s -> N * 10000 = n * den s -> in_s32 N -> decimal n (dmul (parse_scalar s) (d_of_Z N)).
Proof.
  intros O E H. pose proof (fits_size n s O (ex_intro _ N (conj E H))) as NS. assert (HN : Z.abs N <= 2147483648) by (unfold in_s32 in H; lia). assert (HN' : (Rabs (IZR N) <= 2147483648)%R) by (rewrite <- abs_IZR; apply IZR_le; lia).
  destruct (parse_close s O) as (Fg & G). pose proof (den_pos s O) as DP. set (g := val (parse_scalar s)) in *. set (P := IZR (den s)) in *.
  assert (P1 : (1 <= P <= 10000)%R) by (unfold P; split; apply IZR_le; lia).
  assert (G0 : (0 < g)%R). { apply Rmult_lt_reg_r with P; [lra|]. rewrite Rmult_0_l. lra. }
  destruct (d_of_Z_exact N ltac:(change (2 ^ 53) with 9007199254740992; lia)) as (VN & FN).
  assert (X : (IZR n / 10000 = IZR N / P)%R). { assert (IZR N * 10000 = IZR n * P)%R by (unfold P; rewrite <- !mult_IZR; f_equal; exact E). apply (Rmult_eq_reg_r (10000 * P)); [|nra]. field_simplify; lra. }
  set (x := (IZR n / 10000)%R) in *. assert (XN : (IZR N = x * P)%R) by (rewrite X; field; lra).
  set (h := (g * P)%R) in *. assert (GN : (g * IZR N = x * h)%R) by (rewrite XN; unfold h; ring).
  assert (XB : (Rabs x <= 2147483648)%R). { unfold x, Rdiv. rewrite Rabs_mult, (Rabs_pos_eq (/ 10000)) by lra. assert (Rabs (IZR n) <= 21474836480000)%R by (rewrite <- abs_IZR; apply IZR_le; lia). pose proof (Rabs_pos (IZR n)). lra. }
  destruct (rn_error (x * h)) as (eps & eta & E1 & E2 & E3). rewrite b53 in E1. pose proof eta_small as E0.
  assert (XH : (Rabs (x * (h - 1)) <= Rabs x * / 18014398509481984)%R) by (rewrite Rabs_mult; apply Rmult_le_compat_l; [apply Rabs_pos|rewrite Rabs_pos_eq; lra]).
  assert (XHB : (Rabs (x * h) <= 2 * Rabs x)%R) by (rewrite Rabs_mult, (Rabs_pos_eq h) by lra; rewrite Rmult_comm; apply Rmult_le_compat_r; [apply Rabs_pos|lra]).
  assert (XE : (Rabs (x * h * eps) <= 2 * Rabs x * / 9007199254740992)%R) by (rewrite Rabs_mult; apply Rmult_le_compat; try apply Rabs_pos; assumption).
  destruct (dmul_spec (parse_scalar s) (d_of_Z N)) as (VO & FO).
  { fold g. rewrite VN, GN, E3. apply Rle_lt_trans with (bpow radix2 60); [|apply bpow_lt; lia]. replace (x * h * (1 + eps) + eta)%R with (x * h + x * h * eps + eta)%R by ring. eapply Rle_trans; [apply Rabs_triang|]. eapply Rle_trans; [apply Rplus_le_compat_r, Rabs_triang|]. cbn. lra. }
  apply (proj2 (dec_val _ _)). split; [unfold fin; rewrite FO, Fg, FN; reflexivity|]. rewrite VO. fold g. rewrite VN, GN. fold x. split.
  - destruct (Z.eq_dec n 0) as [->|NZ].
    + assert (x = 0%R) as -> by (unfold x; lra). rewrite Rmult_0_l. unfold rn. rewrite round_0 by apply valid_rnd_N. rewrite Rminus_0_r, Rabs_R0. lra.
    + assert (X1 : (/ 10000 <= Rabs x)%R). { unfold x, Rdiv. rewrite Rabs_mult, (Rabs_pos_eq (/ 10000)) by lra. assert (1 <= Rabs (IZR n))%R by (rewrite <- abs_IZR; apply IZR_le; lia). lra. }
      rewrite E3. replace (x * h * (1 + eps) + eta - x)%R with (x * (h - 1) + x * h * eps + eta)%R by ring. eapply Rle_trans; [apply Rabs_triang|]. eapply Rle_trans; [apply Rplus_le_compat_r, Rabs_triang|]. lra.
  - intros R. assert (DV : exists k, n = k * 625) by (apply Z.rem_divide in R; [exact R|lia]). destruct DV as (k & K).
    assert (XK : x = (IZR k * bpow radix2 (-4))%R) by (unfold x; rewrite K, mult_IZR; change (bpow radix2 (-4)) with (/ 16)%R; lra).
    assert (GF : generic_format radix2 fx x).
    { rewrite XK. apply generic_format_FLT. exists (Float radix2 k (-4)); [reflexivity| |cbn; lia]. cbn [Fnum]. change (radix2 ^ 53) with 9007199254740992. lia. }
    destruct (Rtotal_order x 0) as [N0|[Z0|P0]].
    + assert (Y : (- x <= - (x * h) <= - x + - x * / 18014398509481984)%R).
      { assert (- x * 1 <= - x * h)%R by (apply Rmult_le_compat_l; lra). assert (- x * h <= - x * (1 + / 18014398509481984))%R by (apply Rmult_le_compat_l; lra). lra. }
      pose proof (rn_keeps (- x) (- (x * h)) (generic_format_opp _ _ _ GF) ltac:(lra) Y) as K0. rewrite rn_opp in K0. lra.
    + rewrite Z0, Rmult_0_l. apply round_0. apply valid_rnd_N.
    + apply rn_keeps; [exact GF|exact P0|]. assert (x * 1 <= x * h)%R by (apply Rmult_le_compat_l; lra). assert (x * h <= x * (1 + / 18014398509481984))%R by (apply Rmult_le_compat_l; lra). lra.
Qed.

(** The double nearest to n ten-thousandths is one. *)
Lemma decimal_nearest n v : Z.abs n <= 21474836480000 -> fin v -> val v = rn (IZR n / 10000) -> decimal n v.
Proof.
  intros H F V. apply (proj2 (dec_val _ _)). split; [exact F|]. rewrite V. split.
  - destruct (Z.eq_dec n 0) as [->|NZ].
    + replace (0 / 10000)%R with 0%R by lra. unfold rn. rewrite round_0 by apply valid_rnd_N. rewrite Rminus_0_r, Rabs_R0. lra.
    + set (x := (IZR n / 10000)%R). assert (X1 : (/ 10000 <= Rabs x)%R). { unfold x, Rdiv. rewrite Rabs_mult, (Rabs_pos_eq (/ 10000)) by lra. assert (1 <= Rabs (IZR n))%R by (rewrite <- abs_IZR; apply IZR_le; lia). lra. }
      destruct (rn_error x) as (eps & eta & E1 & E2 & E3). rewrite b53 in E1. pose proof eta_small as E0.
      assert (XE : (Rabs (x * eps) <= Rabs x * / 9007199254740992)%R) by (rewrite Rabs_mult; apply Rmult_le_compat_l; [apply Rabs_pos|exact E1]).
      rewrite E3. replace (x * (1 + eps) + eta - x)%R with (x * eps + eta)%R by ring. eapply Rle_trans; [apply Rabs_triang|]. lra.
  - intros R. assert (DV : exists k, n = k * 625) by (apply Z.rem_divide in R; [exact R|lia]). destruct DV as (k & K).
    apply round_generic; [apply valid_rnd_N|]. replace (IZR n / 10000)%R with (IZR k * bpow radix2 (-4))%R by (rewrite K, mult_IZR; change (bpow radix2 (-4)) with (/ 16)%R; lra).
    apply generic_format_FLT. exists (Float radix2 k (-4)); [reflexivity| |cbn; lia]. cbn [Fnum]. change (radix2 ^ 53) with 9007199254740992. lia.
Qed.
