(** makeFilter with arithmetic that does not round. *)
From Coq Require Import Reals Lra Lia ZArith.
From Coquelicot Require Import Complex.
From Verif Require Import Base DataIOModel DataIOProofs SignalModel FilterModel FilterSpec FilterProofs FilterAlgebra.
Import ListNotations.
Open Scope R_scope.
Open Scope C_scope.

(** ---- the analogue poles ---- *)
Definition th (N i : Z) : R := (PI * (1 + 2 * IZR i - IZR N) / (2 * IZR N))%R.
Definition pole (N i : Z) : C := - cis (th N i).
Lemma IZR_pos N : (1 <= N)%Z -> (0 < IZR N)%R.
Proof. intros. apply (IZR_lt 0). lia. Qed.
Lemma th_bound N i : (1 <= N)%Z -> (0 <= i < N)%Z -> (- (PI / 2) < th N i < PI / 2)%R.
Proof.
  intros H I. assert (P := IZR_pos N H). assert (PP := PI_RGT_0). unfold th.
  assert (A1 : (0 <= IZR i)%R) by (apply (IZR_le 0); lia). assert (A2 : (IZR i <= IZR N - 1)%R) by (rewrite <- minus_IZR; apply IZR_le; lia).
  replace (PI * (1 + 2 * IZR i - IZR N) / (2 * IZR N))%R with (PI / 2 * ((1 + 2 * IZR i - IZR N) / IZR N))%R by (field; lra).
  assert (B1 : (-1 < (1 + 2 * IZR i - IZR N) / IZR N)%R) by (apply (Rmult_lt_reg_r (IZR N)); [lra|]; unfold Rdiv; rewrite Rmult_assoc, Rinv_l, Rmult_1_r by lra; lra).
  assert (B2 : ((1 + 2 * IZR i - IZR N) / IZR N < 1)%R) by (apply (Rmult_lt_reg_r (IZR N)); [lra|]; unfold Rdiv; rewrite Rmult_assoc, Rinv_l, Rmult_1_r by lra; lra).
  set (x := ((1 + 2 * IZR i - IZR N) / IZR N)%R) in *. clearbody x.
  assert (Q1 := Rmult_lt_compat_l (PI / 2) (-1) x ltac:(lra) B1). assert (Q2 := Rmult_lt_compat_l (PI / 2) x 1 ltac:(lra) B2). lra.
Qed.
Lemma pole_re N i : (1 <= N)%Z -> (0 <= i < N)%Z -> (Re (pole N i) < 0)%R.
Proof. intros H I. destruct (th_bound N i H I). unfold pole, cis. cbn. assert (Q := cos_gt_0 (th N i) ltac:(lra) ltac:(lra)). lra. Qed.
Lemma pole_mirror N i : (1 <= N)%Z -> pole N (N - 1 - i) = Cconj (pole N i).
Proof.
  intros H. assert (P := IZR_pos N H). unfold pole. replace (th N (N - 1 - i)) with (- th N i)%R.
  - rewrite <- cis_conj. apply Ceq; cbn; lra.
  - unfold th. rewrite !minus_IZR. field. lra.
Qed.
Lemma pole_prod N : (1 <= N)%Z -> cprod (fun i => - pole N i) (Z.to_nat N) = 1.
Proof.
  intros H. assert (P := IZR_pos N H).
  assert (G : forall n, cprod (fun i => - pole N i) n = cis (PI * INR n * (INR n - IZR N) / (2 * IZR N))).
  { induction n; [cbn [cprod INR]; rewrite <- cis_0; f_equal; field; lra|]. cbn [cprod]. rewrite IHn. unfold pole. replace (- - cis (th N (Z.of_nat n))) with (cis (th N (Z.of_nat n))) by ring. rewrite cis_add. f_equal. unfold th. rewrite S_INR, <- INR_IZR_INZ. field. lra. }
  rewrite G, INR_IZR_INZ, Z2Nat.id by lia. rewrite <- cis_0. f_equal. field. lra.
Qed.
Lemma pole_mod N i : Cmod (pole N i) = 1%R.
Proof. unfold pole. rewrite Cmod_opp. apply cis_mod. Qed.
Lemma pole_nz N i : pole N i <> 0.
Proof. intros H. assert (Q := pole_mod N i). rewrite H, Cmod_0 in Q. lra. Qed.
(** Butterworth's identity. *)
Lemma pole_square N (al be : R) : (1 <= N)%Z ->
  (Cmod (cprod (fun i => (Ci * RtoC al - RtoC be * pole N i)%C) (Z.to_nat N)) ^ 2 = al ^ Z.to_nat (2 * N) + be ^ Z.to_nat (2 * N))%R.
Proof.
  intros H. assert (P := IZR_pos N H). rewrite (proj1 (cprod_mod2 _ _)).
  assert (T : forall i, (Cmod (Ci * RtoC al - RtoC be * pole N i)%C ^ 2 = al * al + be * be - 2 * al * be * cos (psi N i))%R).
  { intros i. rewrite mod2. assert (S := sin2_cos2 (th N i)). unfold Rsqr in S.
    assert (C1 : cos (psi N i) = (- sin (th N i))%R). { replace (psi N i) with (PI / 2 + th N i)%R; [rewrite (sin_cos (th N i)); ring|unfold psi, th; field; lra]. }
    rewrite C1. unfold pole, cis, Ci. cbn. transitivity (al * al + be * be * (sin (th N i) * sin (th N i) + cos (th N i) * cos (th N i)) + 2 * al * be * sin (th N i))%R; [ring|rewrite S; ring]. }
  destruct (Req_dec be 0) as [->|NZ].
  - rewrite (cprod_ext _ (fun _ => RtoC (al * al))) by (intros i I; rewrite T; f_equal; ring). rewrite cprod_const, cpow_R. cbn [Re RtoC fst].
    replace (Z.to_nat (2 * N)) with (2 * Z.to_nat N)%nat by lia. rewrite !pow_mult, pow_i by lia. replace (0 ^ 2)%R with 0%R by ring. rewrite pow_i by lia. replace (al ^ 2)%R with (al * al)%R by ring. ring.
  - rewrite (cprod_ext _ (fun i => RtoC (be * be) * (RtoC (al / be) * RtoC (al / be) - 2 * RtoC (cos (psi N i)) * RtoC (al / be) + 1))).
    + rewrite cprod_mul, cprod_const, minus_one_factors by exact H. rewrite !cpow_R, <- RtoC_plus, <- RtoC_mult. cbn [Re RtoC fst].
      replace (Z.to_nat (2 * N)) with (2 * Z.to_nat N)%nat by lia. rewrite !pow_mult. replace (al ^ 2)%R with (be ^ 2 * (al / be) ^ 2)%R by (field; exact NZ). rewrite (Rpow_mult_distr (be ^ 2)). replace (be * be)%R with (be ^ 2)%R by ring. ring.
    + intros i I. rewrite T. rewrite <- !RtoC_mult, <- RtoC_minus, <- RtoC_plus, <- RtoC_mult. f_equal. field. exact NZ.
Qed.

(** ---- the bilinear transform ---- *)
Lemma c8 : RtoC 8 = 4 + 4.
Proof. apply Ceq; cbn; lra. Qed.
Definition bil (w : C) : C := (4 + w) / (4 - w).
Lemma four_minus w : (Re w < 0)%R -> 4 - w <> 0.
Proof. intros H X. apply (f_equal Re) in X. destruct w. cbn in *. lra. Qed.
Lemma bil_conj w : bil (Cconj w) = Cconj (bil w).
Proof. unfold bil. rewrite conj_div, conj_add, conj_sub, conj_R. reflexivity. Qed.
Lemma bil_small w : (Re w < 0)%R -> (Cmod (bil w) < 1)%R.
Proof.
  intros H. unfold bil. rewrite Cmod_div by (apply four_minus; exact H). assert (P : (0 < Cmod (4 - w)%C)%R) by (apply Cmod_gt_0, four_minus; exact H).
  apply (Rmult_lt_reg_r (Cmod (4 - w))); [exact P|]. unfold Rdiv. rewrite Rmult_assoc, Rinv_l, Rmult_1_r, Rmult_1_l by lra.
  unfold Cmod. apply sqrt_lt_1; destruct w as [a b]; cbn [fst snd Cplus Cminus Copp RtoC Re] in *; [apply Rplus_le_le_0_compat; apply pow2_ge_0 ..|].
  replace ((0 + b) ^ 2)%R with (b ^ 2)%R by ring. replace ((0 + - b) ^ 2)%R with (b ^ 2)%R by ring. apply Rplus_lt_compat_r. replace ((4 + - a) ^ 2)%R with ((4 + a) ^ 2 + 16 * (- a))%R by ring. lra.
Qed.
Lemma den_stable (w : Z -> C) n : (forall i, (0 <= i < Z.of_nat n)%Z -> (Re (w i) < 0)%R) -> forall u, (Cmod u <= 1)%R -> cprod (fun i => 1 - bil (w i) * u) n <> 0.
Proof.
  intros H u U. apply cprod_nz. intros i I X. assert (S := bil_small _ (H i I)). assert (E : bil (w i) * u = 1) by (replace (bil (w i) * u) with (1 - (1 - bil (w i) * u)) by ring; rewrite X; ring).
  apply (f_equal Cmod) in E. rewrite Cmod_mult, Cmod_1 in E. assert (P := Cmod_ge_0 u). assert (P2 := Cmod_ge_0 (bil (w i))).
  assert (Q := Rmult_le_compat_l _ _ _ P2 U). lra.
Qed.
Lemma den_core (w : Z -> C) n s u : (forall i, (0 <= i < Z.of_nat n)%Z -> 4 - w i <> 0) -> 4 + s <> 0 -> u = (4 - s) / (4 + s) ->
  cprod (fun i => 1 - bil (w i) * u) n * (cprod (fun i => 4 - w i) n * cpow (4 + s) n) = cpow 8 n * cprod (fun i => s - w i) n.
Proof.
  intros H S ->. rewrite <- !cprod_const, <- !cprod_mul. apply cprod_ext. intros i I. unfold bil. rewrite ?c8. field. split; [exact S|apply H; exact I].
Qed.
Lemma den_nyquist (w : Z -> C) n : (forall i, (0 <= i < Z.of_nat n)%Z -> 4 - w i <> 0) ->
  cprod (fun i => 1 - bil (w i) * - (1)) n * cprod (fun i => 4 - w i) n = cpow 8 n.
Proof.
  intros H. rewrite <- !cprod_const, <- !cprod_mul. apply cprod_ext. intros i I. unfold bil. rewrite ?c8. field. apply H; exact I.
Qed.
Lemma num_core (w : Z -> C) n s u : (forall i, (0 <= i < Z.of_nat n)%Z -> 4 - w i <> 0) -> 4 + s <> 0 -> u = (4 - s) / (4 + s) ->
  cprod (fun i => u - bil (w i)) n * (cprod (fun i => 4 - w i) n * cpow (4 + s) n) = cpow (- (8)) n * cprod (fun i => s + w i) n.
Proof.
  intros H S ->. rewrite <- !cprod_const, <- !cprod_mul. apply cprod_ext. intros i I. unfold bil. rewrite ?c8. field. split; [apply H; exact I|exact S].
Qed.
Lemma num_nyquist (w : Z -> C) n : (forall i, (0 <= i < Z.of_nat n)%Z -> 4 - w i <> 0) ->
  cprod (fun i => - (1) - bil (w i)) n * cprod (fun i => 4 - w i) n = cpow (- (8)) n.
Proof.
  intros H. rewrite <- !cprod_const, <- !cprod_mul. apply cprod_ext. intros i I. unfold bil. rewrite ?c8. field. apply H; exact I.
Qed.
(** Mirrored factors make a real product. *)
Lemma mirror_real f N : (0 <= N)%Z -> (forall i, (0 <= i < N)%Z -> f (N - 1 - i)%Z = Cconj (f i)) -> Im (cprod f (Z.to_nat N)) = 0%R.
Proof.
  intros N0 H. apply conj_real. rewrite cprod_conj, <- cprod_rev. apply cprod_ext. intros i I. rewrite <- H by lia. f_equal. lia.
Qed.

Section Exact.
Context (csqrt : C -> C).
Notation E := (exact_arith csqrt).
Lemma proto_ok N i : (1 <= N)%Z -> proto E N i = pole N i.
Proof.
  intros H. assert (P := IZR_pos N H). unfold proto. cbn [c_neg c_exp c_div c_mul E exact_arith t_pi].
  match goal with |- Copp (_ * cos (snd ?a), _)%R = _ => assert (X : a = (0%R, th N i)) end.
  { unfold c_I, c_of, cz, tz. cbn [c_make t_of_Z E exact_arith]. unfold th. rewrite minus_IZR, plus_IZR, !mult_IZR. apply Ceq; unfold Cdiv, Cmult, Cinv; cbn; field; lra. }
  rewrite X. cbn [fst snd]. rewrite exp_0, !Rmult_1_l. reflexivity.
Qed.
Lemma cprodg_eq f n : cprodg E f n = cprod f n.
Proof. induction n; [reflexivity|]. cbn [cprodg cprod]. rewrite IHn. reflexivity. Qed.
Lemma warp_ok cf fs : (0 < fs)%R -> warp E cf fs = (4 * tan (PI * cf / fs))%R.
Proof. intros H. unfold warp, tz. cbn [t_mul t_tan t_div t_pi t_of_Z E exact_arith]. f_equal. f_equal. field. lra. Qed.

(** What comes after the four filters: 228-240. *)
Definition tail (tN : Z) (r : R * list C * list C) : outcome (list R * list R) :=
  let '(k, z, p) := r in
  obnd (expandPoly E z tN) (fun numer => obnd (expandPoly E p tN) (fun denom =>
  let numer := map (fun x => t_mul E x k) numer in
  obnd (for_each (fun i d => obnd (zget d i) (fun x => obnd (zget d (tN - i)%Z) (fun y => obnd (zset d i y) (fun d => zset d (tN - i)%Z x)))) (zr ((tN + 1) / 2)) denom) (fun denom =>
  Done (numer, denom)))).
Lemma real_roots (f : Z -> C) n : (1 <= n)%Z -> (forall x : R, Im (cprod (fun i => RtoC x - f i) (Z.to_nat n)) = 0%R) -> forall k, (0 <= k <= n)%Z -> RtoC (Re (ec csqrt f (Z.to_nat (n - 1)) k)) = ec csqrt f (Z.to_nat (n - 1)) k.
Proof.
  intros N H k K. apply RtoC_Re. apply (real_coef (Z.to_nat n)); [|lia]. intros x. replace (Z.to_nat n) with (S (Z.to_nat (n - 1))) by lia. rewrite hsum_ecoef.
  replace (S (Z.to_nat (n - 1))) with (Z.to_nat n) by lia. rewrite <- (H x). f_equal. apply cprod_ext. intros i I. ring.
Qed.
Lemma tail_ok n k zf pf : (1 <= n)%Z -> (forall x : R, Im (cprod (fun i => RtoC x - zf i) (Z.to_nat n)) = 0%R) -> (forall x : R, Im (cprod (fun i => RtoC x - pf i) (Z.to_nat n)) = 0%R) ->
  exists b a, tail n (k, tab n zf, tab n pf) = Done (b, a) /\ zlen b = (n + 1)%Z /\ zlen a = (n + 1)%Z /\ nth_error a 0 = Some 1%R /\
    forall u, response b u = RtoC k * cprod (fun i => u - zf i) (Z.to_nat n) /\ response a u = cprod (fun i => 1 - pf i * u) (Z.to_nat n).
Proof.
  intros N Hz Hp. set (m := Z.to_nat (n - 1)). set (bf := fun j => (Re (ec csqrt zf m j) * k)%R). set (af := fun j => Re (ec csqrt pf m (n - j))).
  exists (tab (n + 1) bf), (tab (n + 1) af). split; [|split; [|split; [|split]]].
  - unfold tail, expandPoly. rewrite !(expand_vec_ok E) by lia. cbn [obnd]. rewrite !tab_map. fold m.
    assert (SW := swap_ok (fun j => c_re E (ecoef E pf m j)) n ltac:(lia)). exact (f_equal (fun o => obnd o (fun d => Done (_, d))) SW).
  - apply tab_zlen. lia.
  - apply tab_zlen. lia.
  - rewrite tab_nth by lia. f_equal. unfold af. change (Z.of_nat 0) with 0%Z. replace (n - 0)%Z with (Z.of_nat m + 1)%Z by (unfold m; lia). rewrite ecoef_lead. reflexivity.
  - intros u. replace (n + 1)%Z with (Z.of_nat (Z.to_nat n) + 1)%Z by lia. rewrite !response_hsum. split.
    + rewrite (hsum_ext _ _ (fun j => RtoC k * ec csqrt zf m j + 0 * 0)).
      * rewrite hsum_lin. replace (Z.to_nat n) with (S m) by (unfold m; lia). rewrite hsum_ecoef. rewrite (cprod_ext (fun i => u - zf i * 1) (fun i => u - zf i)) by (intros; ring). ring.
      * intros j J. unfold bf, m. rewrite RtoC_mult, real_roots by (try assumption; lia). ring.
    + rewrite (hsum_ext _ _ (fun j => ec csqrt pf m (Z.of_nat (Z.to_nat n) - j))).
      * rewrite hsum_flip. replace (Z.to_nat n) with (S m) by (unfold m; lia). apply hsum_ecoef.
      * intros j J. unfold af, m. rewrite real_roots by (try assumption; lia). rewrite Z2Nat.id by lia. reflexivity.
Qed.
Lemma makeFilter_tail type N fs cf1 cf2 : (1 <= N)%Z -> (0 < fs)%R -> let n := if Req_EM_T cf2 0 then N else (2 * N)%Z in
  let z := tab n (fun _ => RtoC 0) in let p := tab n (fun k => if (k <? N)%Z then pole N k else RtoC 0) in
  let W1 := (4 * tan (PI * cf1 / fs))%R in let W2 := (4 * tan (PI * cf2 / fs))%R in
  makeFilter E type N fs cf1 cf2 = obnd (match type with Lowpass => lowpass E N z p W1 | Highpass => highpass E N z p W1 | Bandpass => bandpass E N z p W1 W2 | Bandstop => bandstop E N z p W1 W2 end) (tail n).
Proof.
  intros H F n z p W1 W2. assert (NN : (N <= n)%Z) by (unfold n; destruct (Req_EM_T cf2 0); lia). unfold makeFilter.
  replace (if t_zero E cf2 then N else (2 * N)%Z) with n by (unfold n; cbn [t_zero E exact_arith]; destruct (Req_EM_T cf2 0); reflexivity).
  rewrite !warp_ok by exact F. fold W1. fold W2. rewrite fill_ok by lia. cbn [obnd]. rewrite tab_repeat.
  replace (tab n (fun k => if (k <? N)%Z then proto E N k else cz E 0)) with p; [reflexivity|]. apply tab_ext. intros k K. rewrite proto_ok by lia. reflexivity.
Qed.

(** One factor repeated, then zeros. *)
Lemma cprod_over N n f (g h : Z -> C) : (0 <= N <= n)%Z -> (forall k, (0 <= k < N)%Z -> f k = g k) -> (forall k, (N <= k < n)%Z -> f k = h k) ->
  cprod f (Z.to_nat n) = cprod g (Z.to_nat N) * cprod (fun i => h (N + i)%Z) (Z.to_nat (n - N)).
Proof.
  intros H G Hh. replace (Z.to_nat n) with (Z.to_nat N + Z.to_nat (n - N))%nat by lia. rewrite cprod_app. f_equal; apply cprod_ext; intros i I; [apply G; lia|]. rewrite Z2Nat.id by lia. apply Hh. lia.
Qed.
Lemma im_mul a b : Im a = 0%R -> Im b = 0%R -> Im (a * b) = 0%R.
Proof. destruct a, b. cbn. intros -> ->. ring. Qed.
Lemma im_cpow x n : Im x = 0%R -> Im (cpow x n) = 0%R.
Proof. intros H. induction n; [reflexivity|]. cbn [cpow]. apply im_mul; assumption. Qed.
Lemma im_cprod f n : (forall i, (0 <= i < Z.of_nat n)%Z -> Im (f i) = 0%R) -> Im (cprod f n) = 0%R.
Proof. intros H. induction n; [reflexivity|]. cbn [cprod]. apply im_mul; [apply IHn; intros; apply H; lia|apply H; lia]. Qed.
Lemma RtoC_div' a b : b <> 0%R -> RtoC (a / b) = RtoC a / RtoC b.
Proof. intros. apply RtoC_div. assumption. Qed.

Definition good (b a : list R) (n : Z) : Prop := zlen b = (n + 1)%Z /\ zlen a = (n + 1)%Z /\ nth_error a 0 = Some 1%R /\ stable a.

Lemma low_core N n W : (1 <= N <= n)%Z -> (0 < W)%R ->
  exists b a, obnd (lowpass E N (tab n (fun _ => RtoC 0)) (tab n (fun k => if (k <? N)%Z then pole N k else RtoC 0)) W) (tail n) = Done (b, a) /\ good b a n /\
    response b (- (1)) = 0 /\
    forall s u, 4 + s <> 0 -> u = (4 - s) / (4 + s) -> response b u * cprod (fun i => s - RtoC W * pole N i) (Z.to_nat N) = cpow u (Z.to_nat (n - N)) * cpow (RtoC W) (Z.to_nat N) * response a u.
Proof.
  intros H HW. set (w := fun i => pole N i * RtoC W).
  assert (Rw : forall i, (0 <= i < N)%Z -> (Re (w i) < 0)%R). { intros i I. assert (Q := pole_re N i ltac:(lia) I). unfold w. destruct (pole N i) as [x y]. cbn in *. assert (T := Rmult_lt_0_compat (- x) W ltac:(lra) HW). lra. }
  assert (Mw : forall i, w (N - 1 - i)%Z = Cconj (w i)) by (intros i; unfold w; rewrite pole_mirror, conj_mul, conj_R by lia; reflexivity).
  rewrite (lowpass_ok E) by lia. cbn [obnd]. set (k := t_div _ _ _).
  set (zf := over E N (fun _ : Z => cz E (-1)) (fun _ => RtoC 0)). set (pf := over E N _ _).
  assert (Pz : forall u, cprod (fun i => u - zf i) (Z.to_nat n) = cpow (u + 1) (Z.to_nat N) * cpow u (Z.to_nat (n - N))).
  { intros u. rewrite (cprod_over N n _ (fun _ => u + 1) (fun _ => u)); [rewrite !cprod_const; reflexivity|lia| |]; intros j J; unfold zf, over; destruct (Z.ltb_spec j N); try lia; [|ring].
    change (cz E (-1)) with (RtoC (-1)). apply Ceq; destruct u; cbn; lra. }
  assert (Pd : forall x u, cprod (fun i => x - pf i * u) (Z.to_nat n) = cprod (fun i => x - bil (w i) * u) (Z.to_nat N) * cpow x (Z.to_nat (n - N))).
  { intros x u. rewrite (cprod_over N n _ (fun i => x - bil (w i) * u) (fun _ => x)); [rewrite !cprod_const; reflexivity|lia| |]; intros j J; unfold pf, over; destruct (Z.ltb_spec j N); try lia; [reflexivity|]. ring. }
  assert (F4 : forall i, (0 <= i < Z.of_nat (Z.to_nat N))%Z -> 4 - w i <> 0) by (intros i I; apply four_minus, Rw; lia).
  set (PB := cprod (fun i => 4 - w i) (Z.to_nat N)). assert (PBn : PB <> 0) by (apply cprod_nz; exact F4).
  assert (PBr : Im PB = 0%R) by (apply mirror_real; [lia|]; intros i I; rewrite Mw, conj_sub, conj_R; reflexivity).
  assert (Kv : RtoC k = cpow (RtoC W) (Z.to_nat N) / PB).
  { rewrite cpow_R. rewrite <- (RtoC_Re PB PBr) at 1. rewrite <- RtoC_div'.
    - f_equal. unfold k. rewrite cprodg_eq. cbn [t_div t_pow c_re E exact_arith]. f_equal. f_equal. unfold PB. apply cprod_ext. intros i I. cbn beta. destruct (Z.ltb_spec i N); [|lia]. reflexivity.
    - intros X. apply PBn. rewrite <- (RtoC_Re PB PBr), X. reflexivity. }
  destruct (tail_ok n k zf pf) as (b & a & T & Lb & La & A0 & R); [lia| | |].
  { intros x. rewrite Pz. apply im_mul; apply im_cpow; cbn; lra. }
  { intros x. rewrite (cprod_ext _ (fun i => RtoC x - pf i * 1)) by (intros; ring). rewrite Pd. apply im_mul; [|apply im_cpow; reflexivity]. apply mirror_real; [lia|]. intros i I. rewrite Mw, bil_conj, conj_sub, conj_mul, !conj_R. reflexivity. }
  exists b, a. split; [exact T|]. split; [|split].
  - split; [exact Lb|]. split; [exact La|]. split; [exact A0|]. intros u U. rewrite (proj2 (R u)), Pd, cpow_1. apply Cmult_neq_0; [|apply RtoC_neq; lra]. apply den_stable; [intros i I; apply Rw; lia|exact U].
  - rewrite (proj1 (R _)), Pz. replace (- (1) + 1) with (RtoC 0) by (apply Ceq; cbn; lra). rewrite cpow_0 by lia. ring.
  - intros s u S U. rewrite (proj1 (R u)), (proj2 (R u)), Pz, Pd, cpow_1, Kv. assert (D := den_core w (Z.to_nat N) s u F4 S U). fold PB in D.
    assert (S4 := cpow_nz _ (Z.to_nat N) S). rewrite (cprod_ext (fun i => s - RtoC W * pole N i) (fun i => s - w i)) by (intros; unfold w; ring).
    replace (u + 1) with (8 / (4 + s)) by (rewrite U, c8; field; exact S). unfold Cdiv at 2. rewrite cpow_mul.
    set (DD := cprod (fun i => 1 - bil (w i) * u) (Z.to_nat N)) in *. set (SS := cprod (fun i => s - w i) (Z.to_nat N)) in *. set (X4 := cpow (4 + s) (Z.to_nat N)) in *.
    assert (I4 : cpow (/ (4 + s)) (Z.to_nat N) * X4 = 1) by (unfold X4; rewrite <- cpow_mul, Cinv_l, cpow_1 by exact S; reflexivity).
    assert (I5 : cpow (/ (4 + s)) (Z.to_nat N) = / X4) by (replace (cpow (/ (4 + s)) (Z.to_nat N)) with (cpow (/ (4 + s)) (Z.to_nat N) * X4 * / X4) by (field; exact S4); rewrite I4; ring).
    rewrite I5. clearbody DD SS X4 PB. replace (cpow (RtoC W) (Z.to_nat N) / PB * (cpow 8 (Z.to_nat N) * / X4 * cpow u (Z.to_nat (n - N))) * SS) with (cpow (RtoC W) (Z.to_nat N) * cpow u (Z.to_nat (n - N)) / PB * / X4 * (cpow 8 (Z.to_nat N) * SS)) by (field; split; assumption).
    rewrite <- D. field. split; assumption.
Qed.

Lemma cpow_inv (x : C) n : x <> 0 -> cpow (/ x) n = / cpow x n.
Proof.
  intros H. assert (P := cpow_nz x n H). assert (Q : cpow (/ x) n * cpow x n = 1) by (rewrite <- cpow_mul, Cinv_l, cpow_1 by exact H; reflexivity).
  replace (cpow (/ x) n) with (cpow (/ x) n * cpow x n * / cpow x n) by (field; exact P). rewrite Q. ring.
Qed.
Lemma cpow_div (x y : C) n : y <> 0 -> cpow (x / y) n = cpow x n / cpow y n.
Proof. intros H. unfold Cdiv. rewrite cpow_mul, cpow_inv by exact H. reflexivity. Qed.
Lemma c16 : RtoC 16 = 4 * 4.
Proof. apply Ceq; cbn; lra. Qed.
Lemma c2 : RtoC 2 = 1 + 1.
Proof. apply Ceq; cbn; lra. Qed.
Lemma c4 : RtoC 4 = (1 + 1) * (1 + 1).
Proof. apply Ceq; cbn; lra. Qed.
Lemma pole_inv N i : / pole N i = Cconj (pole N i).
Proof.
  assert (S : pole N i * Cconj (pole N i) = 1). { unfold pole. replace (Cconj (- cis (th N i))) with (- cis (- th N i)) by (rewrite <- cis_conj; apply Ceq; cbn; lra). replace (- cis (th N i) * - cis (- th N i)) with (cis (th N i) * cis (- th N i)) by ring. rewrite cis_add, Rplus_opp_r. apply cis_0. }
  replace (/ pole N i) with (/ pole N i * (pole N i * Cconj (pole N i))) by (rewrite S; ring). field. apply pole_nz.
Qed.

Lemma high_core N n W : (1 <= N <= n)%Z -> (0 < W)%R ->
  exists b a, obnd (highpass E N (tab n (fun _ => RtoC 0)) (tab n (fun k => if (k <? N)%Z then pole N k else RtoC 0)) W) (tail n) = Done (b, a) /\ good b a n /\
    response b (- (1)) = cpow (- (1)) (Z.to_nat n) * response a (- (1)) /\
    forall s u, 4 + s <> 0 -> u = (4 - s) / (4 + s) -> response b u * cprod (fun i => RtoC W - s * pole N i) (Z.to_nat N) = cpow u (Z.to_nat (n - N)) * cpow (- s) (Z.to_nat N) * response a u.
Proof.
  intros H HW. set (w := fun i => RtoC W / pole N i).
  assert (Rw : forall i, (0 <= i < N)%Z -> (Re (w i) < 0)%R).
  { intros i I. assert (Q := pole_re N i ltac:(lia) I). unfold w, Cdiv. rewrite pole_inv. destruct (pole N i) as [x y]. cbn in *. assert (T := Rmult_lt_0_compat (- x) W ltac:(lra) HW). lra. }
  assert (Mw : forall i, w (N - 1 - i)%Z = Cconj (w i)) by (intros i; unfold w; rewrite pole_mirror, conj_div, conj_R by lia; reflexivity).
  rewrite (highpass_ok E) by lia. cbn [obnd]. set (k := t_mul _ _ _).
  set (zf := over E N (fun _ : Z => cz E 1) (fun _ => RtoC 0)). set (pf := over E N _ _).
  assert (Pz : forall u, cprod (fun i => u - zf i) (Z.to_nat n) = cpow (u - 1) (Z.to_nat N) * cpow u (Z.to_nat (n - N))).
  { intros u. rewrite (cprod_over N n _ (fun _ => u - 1) (fun _ => u)); [rewrite !cprod_const; reflexivity|lia| |]; intros j J; unfold zf, over; destruct (Z.ltb_spec j N); try lia; [reflexivity|ring]. }
  assert (Pd : forall x u, cprod (fun i => x - pf i * u) (Z.to_nat n) = cprod (fun i => x - bil (w i) * u) (Z.to_nat N) * cpow x (Z.to_nat (n - N))).
  { intros x u. rewrite (cprod_over N n _ (fun i => x - bil (w i) * u) (fun _ => x)); [rewrite !cprod_const; reflexivity|lia| |]; intros j J; unfold pf, over; destruct (Z.ltb_spec j N); try lia; [reflexivity|]. ring. }
  assert (F4 : forall i, (0 <= i < Z.of_nat (Z.to_nat N))%Z -> 4 - w i <> 0) by (intros i I; apply four_minus, Rw; lia).
  set (PB := cprod (fun i => 4 - w i) (Z.to_nat N)). assert (PBn : PB <> 0) by (apply cprod_nz; exact F4).
  assert (PBr : Im PB = 0%R) by (apply mirror_real; [lia|]; intros i I; rewrite Mw, conj_sub, conj_R; reflexivity).
  assert (Kv : RtoC k = cpow 4 (Z.to_nat N) / PB).
  { rewrite cpow_R. rewrite <- (RtoC_Re PB PBr) at 1. rewrite <- RtoC_div'.
    - f_equal. unfold k. rewrite !cprodg_eq. cbn [t_div t_mul t_pow c_re c_neg E exact_arith].
      rewrite (cprod_ext _ (fun i => - pole N i)) by (intros i I; destruct (Z.ltb_spec i N); [reflexivity|lia]). rewrite pole_prod by lia. unfold tz. cbn [t_of_Z E exact_arith Re RtoC fst].
      rewrite (cprod_ext _ (fun i => 4 - w i)) by (intros i I; cbn beta; destruct (Z.ltb_spec i N); [reflexivity|lia]). fold PB. match goal with |- @eq _ ?l ?r => change (@eq R l r) end. field. intros X. apply PBn. rewrite <- (RtoC_Re PB PBr), X. reflexivity.
    - intros X. apply PBn. rewrite <- (RtoC_Re PB PBr), X. reflexivity. }
  destruct (tail_ok n k zf pf) as (b & a & T & Lb & La & A0 & R); [lia| | |].
  { intros x. rewrite Pz. apply im_mul; apply im_cpow; cbn; lra. }
  { intros x. rewrite (cprod_ext _ (fun i => RtoC x - pf i * 1)) by (intros; ring). rewrite Pd. apply im_mul; [|apply im_cpow; reflexivity]. apply mirror_real; [lia|]. intros i I. rewrite Mw, bil_conj, conj_sub, conj_mul, !conj_R. reflexivity. }
  exists b, a. split; [exact T|]. split; [|split].
  - split; [exact Lb|]. split; [exact La|]. split; [exact A0|]. intros u U. rewrite (proj2 (R u)), Pd, cpow_1. apply Cmult_neq_0; [|apply RtoC_neq; lra]. apply den_stable; [intros i I; apply Rw; lia|exact U].
  - rewrite (proj1 (R _)), (proj2 (R _)), Pz, Pd, cpow_1, Kv. assert (D := den_nyquist w (Z.to_nat N) F4). fold PB in D. replace (Z.to_nat n) with (Z.to_nat N + Z.to_nat (n - N))%nat by lia. rewrite cpow_add.
    replace (- (1) - 1) with (2 * - (1)) by (apply Ceq; cbn; lra). rewrite cpow_mul. replace (RtoC 8) with (4 * 2) in D by (apply Ceq; cbn; lra). rewrite cpow_mul in D.
    set (DD := cprod (fun i => 1 - bil (w i) * - (1)) (Z.to_nat N)) in *. clearbody DD PB. replace DD with (DD * PB * / PB) by (field; exact PBn). rewrite D. field. exact PBn.
  - intros s u S U. rewrite (proj1 (R u)), (proj2 (R u)), Pz, Pd, cpow_1, Kv. assert (D := den_core w (Z.to_nat N) s u F4 S U). fold PB in D.
    assert (S4 := cpow_nz _ (Z.to_nat N) S).
    assert (PQ : cprod (fun i => RtoC W - s * pole N i) (Z.to_nat N) = cprod (fun i => s - w i) (Z.to_nat N)).
    { transitivity (cprod (fun i => s - w i) (Z.to_nat N) * cprod (fun i => - pole N i) (Z.to_nat N)); [|rewrite pole_prod by lia; ring]. rewrite <- cprod_mul. apply cprod_ext. intros i I. unfold w. field. apply pole_nz. }
    rewrite PQ. replace (u - 1) with ((1 + 1) * - s / (4 + s)) by (rewrite U; field; exact S). rewrite cpow_div, cpow_mul by exact S. replace (RtoC 8) with (4 * (1 + 1)) in D by (apply Ceq; cbn; lra). rewrite cpow_mul in D.
    set (DD := cprod (fun i => 1 - bil (w i) * u) (Z.to_nat N)) in *. set (SS := cprod (fun i => s - w i) (Z.to_nat N)) in *. set (X4 := cpow (4 + s) (Z.to_nat N)) in *. set (C4 := cpow 4 (Z.to_nat N)) in *. set (C2 := cpow (1 + 1) (Z.to_nat N)) in *.
    set (MS := cpow (- s) (Z.to_nat N)). set (UU := cpow u (Z.to_nat (n - N))). clearbody DD SS X4 C4 C2 MS UU PB.
    replace (C4 / PB * (C2 * MS / X4 * UU) * SS) with (MS * UU / PB * / X4 * (C4 * C2 * SS)) by (field; split; assumption). rewrite <- D. field. split; assumption.
Qed.

(** ---- the two poles made of one ---- *)
Context (Hs : is_sqrt csqrt).
Definition plus (q : Z -> C) (L : R) (i : Z) : C := q i + csqrt (q i * q i - RtoC L).
Definition minus (q : Z -> C) (L : R) (i : Z) : C := q i - csqrt (q i * q i - RtoC L).
Definition both (q : Z -> C) (L : R) (N k : Z) : C := if (k <? N)%Z then plus q L k else minus q L (k - N)%Z.
Lemma pair_sum q L i : plus q L i + minus q L i = 2 * q i.
Proof. unfold plus, minus. rewrite c2. ring. Qed.
Lemma pair_prod q L i : plus q L i * minus q L i = RtoC L.
Proof.
  unfold plus, minus. set (r := csqrt (q i * q i - RtoC L)). replace ((q i + r) * (q i - r)) with (q i * q i - r * r) by ring. unfold r. rewrite (Hs (q i * q i - RtoC L)). ring.
Qed.
Lemma pair_left q L i : (0 < L)%R -> (Re (q i) < 0)%R -> (Re (plus q L i) < 0)%R /\ (Re (minus q L i) < 0)%R.
Proof.
  intros HL HQ. assert (S := pair_sum q L i). assert (P := pair_prod q L i). destruct (plus q L i) as [a b], (minus q L i) as [c d], (q i) as [x y]. cbn in *.
  injection S as S1 S2. injection P as P1 P2.
  assert (A : ((a * a + b * b) * c = L * a)%R). { replace ((a * a + b * b) * c)%R with ((a * c - b * d) * a + b * (a * d + b * c))%R by ring. rewrite P1, P2. ring. }
  assert (B : (a + c < 0)%R) by lra.
  assert (NN : (0 <= a * a + b * b)%R) by (assert (Q1 := Rle_0_sqr a); assert (Q2 := Rle_0_sqr b); unfold Rsqr in *; lra).
  destruct (Rlt_le_dec a 0) as [La|La].
  - split; [exact La|]. destruct (Rlt_le_dec c 0) as [Lc|Lc]; [exact Lc|]. assert (Q := Rmult_le_pos _ _ NN Lc). assert (Q2 := Rmult_lt_0_compat L (- a) HL ltac:(lra)). lra.
  - assert (Q := Rmult_le_pos L a ltac:(lra) La). assert (Lc : (c < 0)%R) by lra. assert (Q2 := Rmult_le_pos (a * a + b * b) (- c) NN ltac:(lra)).
    assert (Z0 : (L * a = 0)%R) by lra. apply Rmult_integral in Z0. destruct Z0 as [Z0|Z0]; [lra|]. subst a. exfalso.
    assert (Z1 : (b * b * c = 0)%R) by lra. apply Rmult_integral in Z1. destruct Z1 as [Z1|Z1]; [|lra]. assert (b = 0)%R by (apply Rsqr_0_uniq; exact Z1). subst b. lra.
Qed.
(** The products over all poles, whichever root was taken. *)
Lemma both_prod (q : Z -> C) L N (c0 c1 : C) : (0 <= N)%Z -> cprod (fun k => c0 - c1 * both q L N k) (Z.to_nat (2 * N)) = cprod (fun i => c0 * c0 - 2 * c0 * c1 * q i + c1 * c1 * RtoC L) (Z.to_nat N).
Proof.
  intros H. rewrite (cprod_pairs (fun i => c0 - c1 * plus q L i) (fun i => c0 - c1 * minus q L i) N); [|exact H| |].
  - apply cprod_ext. intros i I. rewrite <- (pair_prod q L i). replace (2 * c0 * c1 * q i) with (c0 * c1 * (2 * q i)) by ring. rewrite <- (pair_sum q L i). ring.
  - intros k K. unfold both. destruct (Z.ltb_spec k N); [reflexivity|lia].
  - intros k K. unfold both. destruct (Z.ltb_spec (N + k) N); [lia|]. replace (N + k - N)%Z with k by lia. reflexivity.
Qed.
Lemma both_left q L N : (0 < L)%R -> (forall i, (0 <= i < N)%Z -> (Re (q i) < 0)%R) -> forall k, (0 <= k < 2 * N)%Z -> (Re (both q L N k) < 0)%R.
Proof.
  intros HL HQ k K. unfold both. destruct (Z.ltb_spec k N); apply pair_left; try exact HL; apply HQ; lia.
Qed.
Lemma quad_real (q : Z -> C) (a b c : R) N : (0 <= N)%Z -> (forall i, (0 <= i < N)%Z -> q (N - 1 - i)%Z = Cconj (q i)) ->
  Im (cprod (fun i => RtoC a - RtoC b * q i + RtoC c) (Z.to_nat N)) = 0%R.
Proof. intros H M. apply mirror_real; [exact H|]. intros i I. rewrite M, conj_add, conj_sub, conj_mul, !conj_R by exact I. reflexivity. Qed.
(** The digital poles have a real polynomial. *)
Lemma both_real (q : Z -> C) L N : (0 <= N)%Z -> (0 < L)%R -> (forall i, (0 <= i < N)%Z -> (Re (q i) < 0)%R) -> (forall i, (0 <= i < N)%Z -> q (N - 1 - i)%Z = Cconj (q i)) ->
  Im (cprod (fun k => 4 - both q L N k) (Z.to_nat (2 * N))) = 0%R /\ forall x : R, Im (cprod (fun k => RtoC x - bil (both q L N k)) (Z.to_nat (2 * N))) = 0%R.
Proof.
  intros H HL HQ M. assert (LT := both_left q L N HL HQ).
  assert (D : Im (cprod (fun k => 4 - both q L N k) (Z.to_nat (2 * N))) = 0%R).
  { rewrite (cprod_ext _ (fun k => 4 - 1 * both q L N k)) by (intros; ring). rewrite both_prod by exact H. rewrite <- (quad_real q 16 8 L N H M). f_equal. apply cprod_ext. intros i I. apply Ceq; destruct (q i); cbn; ring. }
  split; [exact D|]. intros x. set (P4 := cprod (fun k => 4 - both q L N k) (Z.to_nat (2 * N))) in *.
  assert (P4n : P4 <> 0) by (apply cprod_nz; intros i I; apply four_minus, LT; lia).
  assert (Q : cprod (fun k => RtoC x - bil (both q L N k)) (Z.to_nat (2 * N)) * P4 = cprod (fun k => RtoC (4 * x - 4) - RtoC (x + 1) * both q L N k) (Z.to_nat (2 * N))).
  { unfold P4. rewrite <- cprod_mul. apply cprod_ext. intros i I. rewrite RtoC_minus, RtoC_plus, RtoC_mult. unfold bil. field. apply four_minus, LT; lia. }
  rewrite both_prod in Q by exact H.
  assert (R : Im (cprod (fun i => RtoC (4 * x - 4) * RtoC (4 * x - 4) - 2 * RtoC (4 * x - 4) * RtoC (x + 1) * q i + RtoC (x + 1) * RtoC (x + 1) * RtoC L) (Z.to_nat N)) = 0%R).
  { rewrite <- (quad_real q ((4 * x - 4) * (4 * x - 4)) (2 * (4 * x - 4) * (x + 1)) ((x + 1) * (x + 1) * L) N H M). f_equal. apply cprod_ext. intros i I. rewrite !RtoC_mult. reflexivity. }
  rewrite <- Q in R. clear Q. set (Y := cprod (fun k => RtoC x - bil (both q L N k)) (Z.to_nat (2 * N))) in *. clearbody Y P4.
  destruct Y as [y1 y2], P4 as [p1 p2]. cbn in *. subst p2. assert (X : (y2 * p1 = 0)%R) by lra. apply Rmult_integral in X. destruct X as [X|X]; [exact X|]. subst p1. exfalso. apply P4n. reflexivity.
Qed.

Lemma pp_gain (pp : C) (x : R) : pp <> 0 -> Im pp = 0%R -> RtoC (x * Re pp / (Re pp * Re pp + Im pp * Im pp)) = RtoC x / pp.
Proof.
  intros P I. assert (R0 : Re pp <> 0%R) by (intros X; apply P; apply Ceq; [exact X|exact I]). rewrite I. rewrite <- (RtoC_Re pp I) at 4. rewrite <- RtoC_div' by exact R0. f_equal. field. exact R0.
Qed.
Lemma bandpass_core N W1 W2 : (1 <= N)%Z -> (0 < W1 < W2)%R -> let n := (2 * N)%Z in
  exists b a, obnd (bandpass E N (tab n (fun _ => RtoC 0)) (tab n (fun k => if (k <? N)%Z then pole N k else RtoC 0)) W1 W2) (tail n) = Done (b, a) /\ good b a n /\
    response b (- (1)) = 0 /\
    forall s u, 4 + s <> 0 -> u = (4 - s) / (4 + s) ->
      response b u * cprod (fun i => (s * s + RtoC (W1 * W2)) - RtoC (W2 - W1) * s * pole N i) (Z.to_nat N) = cpow (- (RtoC (W2 - W1) * s)) (Z.to_nat N) * response a u.
Proof.
  intros H HW n. set (L := (W1 * W2)%R). set (B := (W2 - W1)%R). assert (HL : (0 < L)%R) by (unfold L; apply Rmult_lt_0_compat; lra). assert (HB : (0 < B)%R) by (unfold B; lra).
  set (q := fun i => pole N i * RtoC (B / 2)).
  assert (Rq : forall i, (0 <= i < N)%Z -> (Re (q i) < 0)%R). { intros i I. assert (Q := pole_re N i ltac:(lia) I). unfold q. destruct (pole N i) as [x y]. cbn in *. assert (T := Rmult_lt_0_compat (- x) (B / 2) ltac:(lra) ltac:(lra)). lra. }
  assert (Mq : forall i, (0 <= i < N)%Z -> q (N - 1 - i)%Z = Cconj (q i)) by (intros i I; unfold q; rewrite pole_mirror, conj_mul, conj_R by lia; reflexivity).
  set (w := both q L N). assert (Rw := both_left q L N HL Rq). destruct (both_real q L N ltac:(lia) HL Rq Mq) as [PBr DR]. fold w in Rw, PBr, DR.
  unfold n. rewrite (bandpass_ok E) by lia. cbn [obnd].
  set (P := pairs E _ _ N _).
  assert (PW : forall k, (0 <= k < 2 * N)%Z -> P k = w k).
  { intros k K. unfold P, w, both, pairs, plus, minus. destruct (Z.ltb_spec k N) as [L1|L1]; cbn beta; [destruct (Z.ltb_spec k N); [reflexivity|lia]|destruct (Z.ltb_spec (k - N) N); [reflexivity|lia]]. }
  rewrite cprodg_eq. set (pp := cprod _ _). set (k := t_div _ _ _).
  assert (F4 : forall i, (0 <= i < Z.of_nat (Z.to_nat (2 * N)))%Z -> 4 - w i <> 0) by (intros i I; apply four_minus, Rw; lia).
  set (PB := cprod (fun i => 4 - w i) (Z.to_nat (2 * N))) in *. assert (PBn : PB <> 0) by (apply cprod_nz; exact F4).
  assert (Epp : pp = PB) by (apply cprod_ext; intros i I; rewrite PW by lia; reflexivity).
  assert (Kv : RtoC k = cpow (RtoC B) (Z.to_nat N) * cpow 4 (Z.to_nat N) / PB).
  { rewrite !cpow_R, <- RtoC_mult. rewrite <- (pp_gain PB _ PBn PBr). f_equal. unfold k. rewrite Epp. reflexivity. }
  set (zf := fun k0 : Z => if (k0 <? N)%Z then cz E 1 else cz E (-1)). set (pf := fun i : Z => filDiv E (P i)).
  assert (Pz : forall u, cprod (fun i => u - zf i) (Z.to_nat (2 * N)) = cpow ((u - 1) * (u + 1)) (Z.to_nat N)).
  { intros u. rewrite <- cprod_const. apply cprod_pairs; [lia| |]; intros j J; unfold zf; [destruct (Z.ltb_spec j N); [reflexivity|lia]|]. destruct (Z.ltb_spec (N + j) N); [lia|]. change (cz E (-1)) with (RtoC (-1)). apply Ceq; destruct u; cbn; lra. }
  assert (Pd : forall x u, cprod (fun i => x - pf i * u) (Z.to_nat (2 * N)) = cprod (fun i => x - bil (w i) * u) (Z.to_nat (2 * N))).
  { intros x u. apply cprod_ext. intros i I. unfold pf. rewrite PW by lia. reflexivity. }
  destruct (tail_ok (2 * N) k zf pf) as (b & a & T & Lb & La & A0 & R); [lia| | |].
  { intros x. rewrite Pz. apply im_cpow, im_mul; cbn; lra. }
  { intros x. rewrite (cprod_ext _ (fun i => RtoC x - pf i * 1)) by (intros; ring). rewrite Pd. rewrite <- (DR x). f_equal. apply cprod_ext. intros; ring. }
  exists b, a. split; [exact T|]. split; [|split].
  - split; [exact Lb|]. split; [exact La|]. split; [exact A0|]. intros u U. rewrite (proj2 (R u)), Pd. apply den_stable; [intros i I; apply Rw; lia|exact U].
  - rewrite (proj1 (R _)), Pz. replace ((- (1) - 1) * (- (1) + 1)) with (RtoC 0) by (apply Ceq; cbn; lra). rewrite cpow_0 by lia. ring.
  - intros s u S U. rewrite (proj1 (R u)), (proj2 (R u)), Pz, Pd, Kv. assert (D := den_core w (Z.to_nat (2 * N)) s u F4 S U). fold PB in D.
    assert (S2 : (4 + s) * (4 + s) <> 0) by (apply Cmult_neq_0; exact S).
    replace ((u - 1) * (u + 1)) with ((1 + 1) * 8 * - s / ((4 + s) * (4 + s))) by (rewrite U, c8; field; exact S). rewrite cpow_div, !cpow_mul by exact S2.
    assert (QQ : cprod (fun i => s - w i) (Z.to_nat (2 * N)) = cprod (fun i => s * s + RtoC L - RtoC B * s * pole N i) (Z.to_nat N)).
    { rewrite (cprod_ext _ (fun k => s - 1 * both q L N k)) by (intros; unfold w; ring). rewrite both_prod by lia. apply cprod_ext. intros i I. unfold q. assert (B2 : 2 * RtoC (B / 2) = RtoC B) by (rewrite <- RtoC_mult; f_equal; field). rewrite <- B2. ring. }
    rewrite QQ in D. replace (Z.to_nat (2 * N)) with (Z.to_nat N + Z.to_nat N)%nat in D at 2 3 by lia. rewrite !cpow_add in D.
    set (DD := cprod (fun i => 1 - bil (w i) * u) (Z.to_nat (2 * N))) in *. set (SS := cprod (fun i => s * s + RtoC L - RtoC B * s * pole N i) (Z.to_nat N)) in *. set (X4 := cpow (4 + s) (Z.to_nat N)) in *. assert (X4n : X4 <> 0) by (apply cpow_nz; exact S).
    replace (- (RtoC B * s)) with (RtoC B * - s) by ring. rewrite cpow_mul. set (MS := cpow (- s) (Z.to_nat N)). set (CB := cpow (RtoC B) (Z.to_nat N)).
    replace (cpow 8 (Z.to_nat N) * cpow 8 (Z.to_nat N)) with (cpow 4 (Z.to_nat N) * (cpow (1 + 1) (Z.to_nat N) * cpow 8 (Z.to_nat N))) in D by (rewrite <- !cpow_mul; f_equal; apply Ceq; cbn; lra).
    set (C4 := cpow 4 (Z.to_nat N)) in *. set (C2 := cpow (1 + 1) (Z.to_nat N)) in *. set (C8 := cpow 8 (Z.to_nat N)) in *. clearbody DD SS X4 MS CB C4 C2 C8 PB.
    replace (CB * C4 / PB * (C2 * C8 * MS / (X4 * X4)) * SS) with (CB * MS / PB * / X4 * / X4 * (C4 * (C2 * C8) * SS)) by (field; split; assumption). rewrite <- D. field. split; assumption.
Qed.
Lemma bandstop_core N W1 W2 : (1 <= N)%Z -> (0 < W1 < W2)%R -> let n := (2 * N)%Z in
  exists b a, obnd (bandstop E N (tab n (fun _ => RtoC 0)) (tab n (fun k => if (k <? N)%Z then pole N k else RtoC 0)) W1 W2) (tail n) = Done (b, a) /\ good b a n /\
    response b (- (1)) = response a (- (1)) /\
    forall s u, 4 + s <> 0 -> u = (4 - s) / (4 + s) ->
      response b u * cprod (fun i => RtoC (W2 - W1) * s - (s * s + RtoC (W1 * W2)) * pole N i) (Z.to_nat N) = cpow (s * s + RtoC (W1 * W2)) (Z.to_nat N) * response a u.
Proof.
  intros H HW n. set (L := (W1 * W2)%R). set (B := (W2 - W1)%R). assert (HL : (0 < L)%R) by (unfold L; apply Rmult_lt_0_compat; lra). assert (HB : (0 < B)%R) by (unfold B; lra).
  set (q := fun i => RtoC (B / 2) / pole N i).
  assert (Rq : forall i, (0 <= i < N)%Z -> (Re (q i) < 0)%R). { intros i I. assert (Q := pole_re N i ltac:(lia) I). unfold q, Cdiv. rewrite pole_inv. destruct (pole N i) as [x y]. cbn in *. assert (T := Rmult_lt_0_compat (- x) (B / 2) ltac:(lra) ltac:(lra)). lra. }
  assert (Mq : forall i, (0 <= i < N)%Z -> q (N - 1 - i)%Z = Cconj (q i)) by (intros i I; unfold q; rewrite pole_mirror, conj_div, conj_R by lia; reflexivity).
  set (w := both q L N). assert (Rw := both_left q L N HL Rq). destruct (both_real q L N ltac:(lia) HL Rq Mq) as [PBr DR]. fold w in Rw, PBr, DR.
  unfold n. rewrite (bandstop_ok E) by lia. cbn [obnd].
  set (P := pairs E _ _ N _).
  assert (PW : forall k, (0 <= k < 2 * N)%Z -> P k = w k).
  { intros k K. unfold P, w, both, pairs, plus, minus. destruct (Z.ltb_spec k N) as [L1|L1]; cbn beta; [destruct (Z.ltb_spec k N); [reflexivity|lia]|destruct (Z.ltb_spec (k - N) N); [reflexivity|lia]]. }
  rewrite !cprodg_eq, ?cprodg_eq. replace (N * 2)%Z with (2 * N)%Z by lia. set (zeta := c_mul E (c_I E) _).
  set (z := fun k : Z => if (k <? N)%Z then zeta else - zeta).
  set (zp := cprod (fun i => 4 - z i) (Z.to_nat (2 * N))). set (pp := cprod (fun i => 4 - P i) (Z.to_nat (2 * N))).
  change (cprod (fun i : Z => c_sub E (cz E 4) (if (i <? N)%Z then zeta else c_neg E zeta)) (Z.to_nat (2 * N))) with zp. change (cprod (fun i : Z => c_sub E (cz E 4) (P i)) (Z.to_nat (2 * N))) with pp. set (k := t_div _ _ _).
  assert (Ez : zeta = Ci * RtoC (sqrt L)) by reflexivity. assert (Zz : zeta * zeta = - RtoC L).
  { rewrite Ez. apply Ceq; cbn; [|ring]. assert (Q := sqrt_sqrt L ltac:(lra)). transitivity (- (sqrt L * sqrt L))%R; [ring|rewrite Q; reflexivity]. }
  assert (F4 : forall i, (0 <= i < Z.of_nat (Z.to_nat (2 * N)))%Z -> 4 - w i <> 0) by (intros i I; apply four_minus, Rw; lia).
  assert (Z4 : forall i, (0 <= i < Z.of_nat (Z.to_nat (2 * N)))%Z -> 4 - z i <> 0).
  { intros i I X. unfold z in X. rewrite Ez in X. destruct (i <? N)%Z; apply (f_equal Re) in X; cbn in X; lra. }
  set (PB := cprod (fun i => 4 - w i) (Z.to_nat (2 * N))) in *. assert (PBn : PB <> 0) by (apply cprod_nz; exact F4).
  assert (Epp : pp = PB) by (apply cprod_ext; intros i I; rewrite PW by lia; reflexivity).
  assert (ZPn : zp <> 0) by (apply cprod_nz; exact Z4).
  assert (Pzz : forall c0 c1 : C, cprod (fun i => c0 - c1 * z i) (Z.to_nat (2 * N)) = cpow (c0 * c0 + c1 * c1 * RtoC L) (Z.to_nat N)).
  { intros c0 c1. rewrite <- cprod_const. rewrite (cprod_pairs (fun _ => c0 - c1 * zeta) (fun _ => c0 + c1 * zeta) N); [|lia| |].
    - apply cprod_ext. intros i I. replace (RtoC L) with (- (zeta * zeta)) by (rewrite Zz; ring). ring.
    - intros j J. unfold z. destruct (Z.ltb_spec j N); [reflexivity|lia].
    - intros j J. unfold z. destruct (Z.ltb_spec (N + j) N); [lia|]. ring. }
  assert (ZPr : Im zp = 0%R). { unfold zp. rewrite (cprod_ext _ (fun i => 4 - 1 * z i)) by (intros; ring). rewrite Pzz. apply im_cpow. cbn. lra. }
  assert (Kv : RtoC k = zp / PB).
  { rewrite <- (RtoC_Re zp ZPr). rewrite <- (pp_gain PB _ PBn PBr). f_equal. unfold k. rewrite ?cprodg_eq. change (cprod (fun i : Z => c_sub E (cz E 4) (P i)) (Z.to_nat (2 * N))) with pp. rewrite Epp. unfold c_norm. cbn [t_div t_add t_mul c_re c_im E exact_arith]. rewrite ZPr. match goal with |- @eq _ ?l ?r => change (@eq R l r) end. f_equal. ring. }
  set (zf := fun i : Z => filDiv E (z i)). set (pf := fun i : Z => filDiv E (P i)).
  assert (Pd : forall x u, cprod (fun i => x - pf i * u) (Z.to_nat (2 * N)) = cprod (fun i => x - bil (w i) * u) (Z.to_nat (2 * N))).
  { intros x u. apply cprod_ext. intros i I. unfold pf. rewrite PW by lia. reflexivity. }
  assert (Pz : forall u, cprod (fun i => u - zf i) (Z.to_nat (2 * N)) = cprod (fun i => u - bil (z i)) (Z.to_nat (2 * N))) by reflexivity.
  destruct (tail_ok (2 * N) k zf pf) as (b & a & T & Lb & La & A0 & R); [lia| | |].
  { intros x. rewrite Pz. 
    assert (Q : cprod (fun i => RtoC x - bil (z i)) (Z.to_nat (2 * N)) * zp = cprod (fun i => RtoC (4 * x - 4) - RtoC (x + 1) * z i) (Z.to_nat (2 * N))).
    { unfold zp. rewrite <- cprod_mul. apply cprod_ext. intros i I. rewrite RtoC_minus, RtoC_plus, RtoC_mult. unfold bil. field. apply Z4; lia. }
    rewrite Pzz in Q. assert (RR : Im (cpow (RtoC (4 * x - 4) * RtoC (4 * x - 4) + RtoC (x + 1) * RtoC (x + 1) * RtoC L) (Z.to_nat N)) = 0%R) by (apply im_cpow; cbn; lra). rewrite <- Q in RR.
    set (Y := cprod (fun i => RtoC x - bil (z i)) (Z.to_nat (2 * N))) in *. clear - RR ZPn ZPr. clearbody Y zp. destruct Y as [y1 y2], zp as [p1 p2]. cbn in *. subst p2. assert (X : (y2 * p1 = 0)%R) by lra. apply Rmult_integral in X. destruct X as [X|X]; [exact X|]. subst p1. exfalso. apply ZPn. reflexivity. }
  { intros x. rewrite (cprod_ext _ (fun i => RtoC x - pf i * 1)) by (intros; ring). rewrite Pd. rewrite <- (DR x). f_equal. apply cprod_ext. intros; ring. }
  exists b, a. split; [exact T|]. split; [|split].
  - split; [exact Lb|]. split; [exact La|]. split; [exact A0|]. intros u U. rewrite (proj2 (R u)), Pd. apply den_stable; [intros i I; apply Rw; lia|exact U].
  - rewrite (proj1 (R _)), (proj2 (R _)), Pz, Pd, Kv. assert (D := den_nyquist w (Z.to_nat (2 * N)) F4). fold PB in D. assert (D2 := num_nyquist z (Z.to_nat (2 * N)) Z4). change (cprod (fun i => 4 - z i) (Z.to_nat (2 * N))) with zp in D2.
    replace (cpow (- (8)) (Z.to_nat (2 * N))) with (cpow 8 (Z.to_nat (2 * N))) in D2.
    2:{ replace (Z.to_nat (2 * N)) with (Z.to_nat N + Z.to_nat N)%nat by lia. rewrite !cpow_add, <- !cpow_mul. f_equal. ring. }
    rewrite <- D in D2. set (DD := cprod (fun i => 1 - bil (w i) * - (1)) (Z.to_nat (2 * N))) in *. set (NN := cprod (fun i => - (1) - bil (z i)) (Z.to_nat (2 * N))) in *. clearbody DD NN PB zp.
    replace (zp / PB * NN) with (NN * zp / PB) by (field; exact PBn). rewrite D2. field. exact PBn.
  - intros s u S U. rewrite (proj1 (R u)), (proj2 (R u)), Pz, Pd, Kv. assert (D := den_core w (Z.to_nat (2 * N)) s u F4 S U). fold PB in D. assert (D2 := num_core z (Z.to_nat (2 * N)) s u Z4 S U). change (cprod (fun i => 4 - z i) (Z.to_nat (2 * N))) with zp in D2.
    rewrite (cprod_ext (fun i => s + z i) (fun i => s - (- (1)) * z i)) in D2 by (intros; ring). rewrite Pzz in D2. replace (s * s + - (1) * - (1) * RtoC L) with (s * s + RtoC L) in D2 by ring.
    replace (cpow (- (8)) (Z.to_nat (2 * N))) with (cpow 8 (Z.to_nat (2 * N))) in D2.
    2:{ replace (Z.to_nat (2 * N)) with (Z.to_nat N + Z.to_nat N)%nat by lia. rewrite !cpow_add, <- !cpow_mul. f_equal. ring. }
    assert (QQ : cprod (fun i => s - w i) (Z.to_nat (2 * N)) = cprod (fun i => RtoC B * s - (s * s + RtoC L) * pole N i) (Z.to_nat N)).
    { rewrite (cprod_ext _ (fun k => s - 1 * both q L N k)) by (intros; unfold w; ring). rewrite both_prod by lia.
      transitivity (cprod (fun i => s * s - 2 * s * 1 * q i + 1 * 1 * RtoC L) (Z.to_nat N) * cprod (fun i => - pole N i) (Z.to_nat N)); [rewrite pole_prod by lia; ring|]. rewrite <- cprod_mul. apply cprod_ext. intros i I. unfold q. assert (B2 : 2 * RtoC (B / 2) = RtoC B) by (rewrite <- RtoC_mult; f_equal; field). rewrite <- B2. field. apply pole_nz. }
    rewrite QQ in D. set (DD := cprod (fun i => 1 - bil (w i) * u) (Z.to_nat (2 * N))) in *. set (NN := cprod (fun i => u - bil (z i)) (Z.to_nat (2 * N))) in *. set (SS := cprod (fun i => RtoC B * s - (s * s + RtoC L) * pole N i) (Z.to_nat N)) in *. assert (X4n := cpow_nz _ (Z.to_nat (2 * N)) S). set (X4 := cpow (4 + s) (Z.to_nat (2 * N))) in *.
    set (C8 := cpow 8 (Z.to_nat (2 * N))) in *. set (Y := cpow (s * s + RtoC L) (Z.to_nat N)) in *. clearbody DD NN SS X4 C8 Y zp PB.
    replace (zp / PB * NN * SS) with (NN * (zp * X4) / PB * / X4 * SS) by (field; split; assumption). rewrite D2.
    replace (C8 * Y / PB * / X4 * SS) with (Y / PB * / X4 * (C8 * SS)) by (field; split; assumption). rewrite <- D. field. split; assumption.
Qed.
End Exact.
