(** C88, C91, C92, C93: building a temporal filter. *)
From Coq Require Import Reals Lra Lia ZArith Permutation.
From Coquelicot Require Import Complex.
From Verif Require Import Base DataIOModel DataIOProofs SignalModel FilterModel FilterSpec FilterProofs FilterAlgebra FilterExact.
Import ListNotations.
Open Scope R_scope.
Open Scope C_scope.

(** A complex square root exists, so the hypothesis [is_sqrt] can be met. *)
Lemma sqrt_exists : exists csqrt, is_sqrt csqrt.
Proof.
  exists (fun z => let m := Cmod z in (sqrt ((m + Re z) / 2), if Rlt_dec (Im z) 0 then - sqrt ((m - Re z) / 2) else sqrt ((m - Re z) / 2))%R).
  intros [x y]. cbn [Re Im fst snd]. set (m := Cmod (x, y)).
  assert (M : (m * m = x * x + y * y)%R) by (unfold m; assert (Q := mod2 (x, y)); cbn [Re Im fst snd] in Q; lra). assert (M0 : (0 <= m)%R) by apply Cmod_ge_0. clearbody m.
  assert (Q1 : (0 <= (m + x) / 2)%R /\ (0 <= (m - x) / 2)%R).
  { assert (Y := Rle_0_sqr y). unfold Rsqr in Y. assert (X : (Rabs x <= m)%R). { apply Rsqr_incr_0_var; [|exact M0]. rewrite <- Rsqr_abs. unfold Rsqr. lra. }
    assert (X1 := Rle_abs x). assert (X2 := Rle_abs (- x)). rewrite Rabs_Ropp in X2. lra. }
  destruct Q1 as [P1 P2]. assert (S1 := sqrt_sqrt _ P1). assert (S2 := sqrt_sqrt _ P2).
  assert (PR : (sqrt ((m + x) / 2) * sqrt ((m - x) / 2) = Rabs y / 2)%R).
  { rewrite <- sqrt_mult by assumption. replace ((m + x) / 2 * ((m - x) / 2))%R with (Rsqr (y / 2)) by (unfold Rsqr; replace ((m + x) / 2 * ((m - x) / 2))%R with ((m * m - x * x) / 4)%R by field; rewrite M; field).
    rewrite sqrt_Rsqr_abs. unfold Rdiv. rewrite Rabs_mult, (Rabs_right (/ 2)) by lra. reflexivity. }
  destruct (Rlt_dec y 0) as [L|L]; [rewrite Rabs_left in PR by lra|rewrite Rabs_right in PR by lra]; apply Ceq; cbn; lra.
Qed.

(** ---- C88 ---- *)
Lemma root_product_tab (l : list C) x : root_product l x = cprod (fun k => x - nth (Z.to_nat k) l 0) (length l).
Proof.
  induction l as [|c l IH]; [reflexivity|]. cbn [root_product length]. rewrite cprod_first, IH. f_equal. apply cprod_ext. intros i I. replace (Z.to_nat (i + 1)) with (S (Z.to_nat i)) by lia. reflexivity.
Qed.
Lemma poly_at_tab (n : nat) : forall g x, poly_at (tab (Z.of_nat n) g) x = csum (fun k => g (Z.of_nat k) * cpow x k) n.
Proof.
  induction n; intros g u; [reflexivity|]. rewrite csum_first. change (cpow u 0) with (RtoC 1). change (Z.of_nat 0) with 0%Z.
  assert (T : tab (Z.of_nat (S n)) g = g 0%Z :: tab (Z.of_nat n) (fun k => g (k + 1)%Z)).
  { apply SignalProofs.nth_error_ext. intros k. destruct (Nat.ltb_spec k (S n)) as [L|L].
    - rewrite tab_nth by lia. destruct k; [reflexivity|]. cbn [nth_error]. rewrite tab_nth by lia. f_equal. f_equal. lia.
    - transitivity (@None C); [|symmetry]; apply nth_error_None; [rewrite tab_len|cbn [length]; rewrite tab_len]; lia. }
  rewrite T. cbn [poly_at]. rewrite IHn. rewrite <- csum_scal. f_equal; [ring|]. apply csum_ext. intros i I. replace (Z.of_nat (S i)) with (Z.of_nat i + 1)%Z by lia. cbn [cpow]. ring.
Qed.
Lemma root_product_perm l l' x : Permutation l l' -> root_product l x = root_product l' x.
Proof. induction 1; cbn [root_product]; [reflexivity|rewrite IHPermutation; reflexivity|ring|congruence]. Qed.
Lemma root_product_conj l (x : R) : Cconj (root_product l (RtoC x)) = root_product (map Cconj l) (RtoC x).
Proof. induction l; cbn [root_product map]; [apply conj_R|]. rewrite conj_mul, conj_sub, conj_R, IHl. reflexivity. Qed.

Theorem C88_coefficients : forall csqrt (roots : list C), roots <> [] ->
  exists v, expand_vec (exact_arith csqrt) roots (zlen roots) = Done v /\ length v = S (length roots) /\ (forall x, poly_at v x = root_product roots x) /\
    (Permutation (map Cconj roots) roots -> exists c, expandPoly (exact_arith csqrt) roots (zlen roots) = Done c /\ length c = S (length roots) /\ forall x, response c x = root_product roots x).
Proof.
  intros csqrt roots NE. assert (L : (1 <= zlen roots)%Z) by (destruct roots; [congruence|unfold zlen; cbn [length]; lia]).
  set (n := zlen roots) in *. set (c := fun k => nth (Z.to_nat k) roots (RtoC 0)). assert (T : roots = tab n c) by apply tab_of.
  assert (EV : expand_vec (exact_arith csqrt) roots n = Done (tab (n + 1) (ec csqrt c (Z.to_nat (n - 1))))) by (rewrite T; apply (expand_vec_ok (exact_arith csqrt)); exact L).
  assert (Ln : length roots = Z.to_nat n) by (unfold n, zlen; lia).
  exists (tab (n + 1) (ec csqrt c (Z.to_nat (n - 1)))). split; [exact EV|]. split; [rewrite tab_len; lia|]. split.
  - intros x. replace (n + 1)%Z with (Z.of_nat (S (Z.to_nat n))) by lia. rewrite poly_at_tab.
    transitivity (hsum (Z.to_nat n) (ec csqrt c (Z.to_nat (n - 1))) x 1); [unfold hsum; apply csum_ext; intros i I; rewrite cpow_1; ring|].
    replace (Z.to_nat n) with (S (Z.to_nat (n - 1))) by lia. rewrite hsum_ecoef, root_product_tab, Ln. replace (S (Z.to_nat (n - 1))) with (Z.to_nat n) by lia. apply cprod_ext. intros i I. unfold c. ring.
  - intros P. exists (tab (n + 1) (fun k => Re (ec csqrt c (Z.to_nat (n - 1)) k))). split; [|split].
    + unfold expandPoly. rewrite EV. cbn [obnd]. rewrite tab_map. reflexivity.
    + rewrite tab_len. lia.
    + intros x. replace (n + 1)%Z with (Z.of_nat (Z.to_nat n) + 1)%Z by lia. rewrite response_hsum.
      rewrite (hsum_ext _ _ (ec csqrt c (Z.to_nat (n - 1)))).
      * replace (Z.to_nat n) with (S (Z.to_nat (n - 1))) by lia. rewrite hsum_ecoef, root_product_tab, Ln. replace (S (Z.to_nat (n - 1))) with (Z.to_nat n) by lia. apply cprod_ext. intros i I. unfold c. ring.
      * intros k K. apply real_roots; [exact L| |lia]. intros y. apply conj_real. rewrite <- Ln. unfold c. rewrite <- root_product_tab. rewrite root_product_conj. apply root_product_perm. exact P.
Qed.
Print Assumptions C88_coefficients.
(** Whatever the arithmetic, the arrays are not left, and there must be a root. *)
Theorem C88_bounds : forall A (roots : list (cv A)), roots <> [] -> exists c, expandPoly A roots (zlen roots) = Done c /\ length c = S (length roots).
Proof.
  intros A roots NE. assert (L : (1 <= zlen roots)%Z) by (destruct roots; [congruence|unfold zlen; cbn [length]; lia]).
  assert (Ln : length roots = Z.to_nat (zlen roots)) by (unfold zlen; lia). set (n := zlen roots) in *. destruct roots as [|d rs]; [congruence|]. rewrite (tab_of d (d :: rs)). fold n. unfold expandPoly. rewrite expand_vec_ok by exact L. cbn [obnd]. eexists. split; [reflexivity|].
  rewrite map_length, !tab_len. lia.
Qed.
Print Assumptions C88_bounds.
Theorem C88_no_root_undefined : forall A, expandPoly A [] 0 = Undefined.
Proof. reflexivity. Qed.
Print Assumptions C88_no_root_undefined.
(** The roots i and -i give 1 + x^2. *)
Example ex_C88 : Permutation (map Cconj [Ci; - Ci]) [Ci; - Ci] /\ root_product [Ci; - Ci] 2 = 5.
Proof.
  split.
  - cbn [map]. replace (Cconj Ci) with (- Ci) by (apply Ceq; cbn; lra). replace (Cconj (- Ci)) with Ci by (apply Ceq; cbn; lra). apply perm_swap.
  - apply Ceq; cbn; lra.
Qed.

(** ---- C91, C92: what the filters let through ---- *)
Lemma angle fs f : (0 < fs)%R -> (- (fs / 2) < f < fs / 2)%R -> (- (PI / 2) < PI * f / fs < PI / 2)%R.
Proof.
  intros F H. assert (P := PI_RGT_0). replace (PI * f / fs)%R with (PI * (f / fs))%R by (field; lra).
  assert (A : (- (1 / 2) < f / fs < 1 / 2)%R). { split; apply (Rmult_lt_reg_r fs); try lra; unfold Rdiv; rewrite Rmult_assoc, ?(Rmult_assoc f), ?Rinv_l by lra; lra. }
  set (x := (f / fs)%R) in *. clearbody x. assert (Q1 := Rmult_lt_compat_l PI _ _ P (proj1 A)). assert (Q2 := Rmult_lt_compat_l PI _ _ P (proj2 A)). lra.
Qed.
Lemma tn_pos fs f : (0 < f < fs / 2)%R -> (0 < tn fs f)%R.
Proof.
  intros H. unfold tn. assert (A := angle fs f ltac:(lra) ltac:(lra)). apply tan_gt_0; [|lra]. assert (P := PI_RGT_0). apply Rdiv_lt_0_compat; [apply Rmult_lt_0_compat|]; lra.
Qed.
Lemma tn_mono fs f g : (0 < f < g)%R -> (g < fs / 2)%R -> (tn fs f < tn fs g)%R.
Proof.
  intros H G. unfold tn. assert (A := angle fs f ltac:(lra) ltac:(lra)). assert (B := angle fs g ltac:(lra) ltac:(lra)). apply tan_increasing; [lra| |lra]. assert (P := PI_RGT_0).
  unfold Rdiv. apply Rmult_lt_compat_r; [apply Rinv_0_lt_compat; lra|]. apply Rmult_lt_compat_l; lra.
Qed.
Lemma osc_bilinear fs f : (0 < fs)%R -> (- (fs / 2) < f < fs / 2)%R -> let s := Ci * RtoC (4 * tn fs f) in 4 + s <> 0 /\ osc fs f = (4 - s) / (4 + s).
Proof.
  intros F H s. assert (A := angle fs f F H). assert (C0 := cos_gt_0 _ (proj1 A) (proj2 A)).
  assert (NZ : 4 + s <> 0) by (intros X; apply (f_equal Re) in X; unfold s in X; cbn in X; lra). split; [exact NZ|].
  assert (M : osc fs f * (4 + s) = 4 - s).
  { unfold osc, s, tn. replace (2 * PI * f / fs)%R with (2 * (PI * f / fs))%R by (field; lra). set (a := (PI * f / fs)%R) in *. clearbody a. rewrite cos_2a, sin_2a. unfold tan. assert (S := sin2_cos2 a). unfold Rsqr in S. set (c := cos a) in *. set (d := sin a) in *. clearbody c d.
    apply Ceq; cbn.
    - transitivity (4 * ((c * c - d * d) + 2 * d * d))%R; [field; lra|]. replace (c * c - d * d + 2 * d * d)%R with (d * d + c * c)%R by ring. rewrite S. ring.
    - transitivity (4 * (d / c) * ((c * c - d * d) - 2 * c * c))%R; [field; lra|]. replace (c * c - d * d - 2 * c * c)%R with (- (d * d + c * c))%R by ring. rewrite S. ring. }
  rewrite <- M. field. exact NZ.
Qed.
Lemma osc_mod fs f : Cmod (osc fs f) = 1%R.
Proof. replace (osc fs f) with (cis (- (2 * PI * f / fs))) by (unfold cis, osc; rewrite cos_neg, sin_neg; reflexivity). apply cis_mod. Qed.
Lemma osc_0 fs : (0 < fs)%R -> osc fs 0 = 1.
Proof. intros H. unfold osc. replace (2 * PI * 0 / fs)%R with 0%R by (field; lra). rewrite cos_0, sin_0. apply Ceq; cbn; lra. Qed.
Lemma gain_mod b a u (X Y : C) (x2 y2 : R) : response a u <> 0 -> response b u * X = Y * response a u -> (Cmod X ^ 2 = x2)%R -> (Cmod Y ^ 2 = y2)%R -> (0 < x2)%R -> (Cmod (gain b a u) ^ 2 = y2 / x2)%R.
Proof.
  intros A H HX HY P. unfold gain. rewrite Cmod_div by exact A. assert (A0 : Cmod (response a u) <> 0%R) by (assert (Q := proj1 (Cmod_gt_0 _) A); lra).
  assert (X0 : Cmod X <> 0%R). { intros Z0. rewrite Z0 in HX. cbn in HX. lra. }
  apply (f_equal Cmod) in H. rewrite !Cmod_mult in H. rewrite <- HX, <- HY.
  replace (Cmod (response b u)) with (Cmod Y * Cmod (response a u) / Cmod X)%R by (rewrite <- H; field; exact X0). field. split; assumption.
Qed.
Lemma even_pow (x : R) N : (0 <= x ^ Z.to_nat (2 * N))%R.
Proof. destruct (Z_le_gt_dec 0 N) as [P|P]; [replace (Z.to_nat (2 * N)) with (2 * Z.to_nat N)%nat by lia|replace (Z.to_nat (2 * N)) with O by lia; cbn; lra]. rewrite pow_mult. apply pow_le, pow2_ge_0. Qed.
Lemma even_pos (x : R) N : x <> 0%R -> (0 < x ^ Z.to_nat (2 * N))%R.
Proof. intros H. assert (Q := even_pow x N). assert (Q2 := pow_nonzero x (Z.to_nat (2 * N)) H). lra. Qed.
Lemma mod_pow_R (r : R) N : (0 <= N)%Z -> (Cmod (cpow (RtoC r) (Z.to_nat N)) ^ 2 = r ^ Z.to_nat (2 * N))%R.
Proof. intros H. rewrite cpow_R, mod2. cbn [Re Im RtoC fst snd]. rewrite <- pow_mult. replace (Z.to_nat N * 2)%nat with (Z.to_nat (2 * N)) by lia. ring. Qed.
Lemma mod_Ci : Cmod Ci = 1%R.
Proof. unfold Cmod. replace (fst Ci ^ 2 + snd Ci ^ 2)%R with 1%R by (cbn; ring). apply sqrt_1. Qed.
Lemma rpow_div (x y : R) n : y <> 0%R -> ((x / y) ^ n = x ^ n / y ^ n)%R.
Proof. intros H. unfold Rdiv. rewrite Rpow_mult_distr, pow_inv. reflexivity. Qed.
Lemma mod_pow_i (r : R) N : (0 <= N)%Z -> (Cmod (cpow (Ci * RtoC r)%C (Z.to_nat N)) ^ 2 = r ^ Z.to_nat (2 * N))%R.
Proof.
  intros H. rewrite cpow_mul, Cmod_mult, cpow_mod. rewrite mod_Ci, pow1, Rmult_1_l; apply mod_pow_R; exact H.
Qed.
Lemma mod_opp_pow x n : Cmod (cpow (- x) n) = Cmod (cpow x n).
Proof. rewrite !cpow_mod, Cmod_opp. reflexivity. Qed.
(** W - i t p instead of i t - W p. *)
Lemma pole_square' N (al be : R) : (1 <= N)%Z ->
  (Cmod (cprod (fun i => (RtoC al - Ci * RtoC be * pole N i)%C) (Z.to_nat N)) ^ 2 = al ^ Z.to_nat (2 * N) + be ^ Z.to_nat (2 * N))%R.
Proof.
  intros H. rewrite (cprod_ext _ (fun i => (- Ci) * (Ci * RtoC al - RtoC (- be) * pole N i))) by (intros i I; apply Ceq; destruct (pole N i); cbn; ring).
  rewrite cprod_mul, cprod_const, Cmod_mult, cpow_mod, Cmod_opp. rewrite mod_Ci.
  rewrite pow1, Rmult_1_l, pole_square by exact H. f_equal. replace (Z.to_nat (2 * N)) with (2 * Z.to_nat N)%nat by lia. rewrite !pow_mult. f_equal. ring.
Qed.
Lemma scale_pow (k x : R) n : (0 < k)%R -> ((k * x) ^ n = k ^ n * x ^ n)%R.
Proof. intros. apply Rpow_mult_distr. Qed.

Theorem C91_response : forall csqrt, is_sqrt csqrt -> forall type N fs cf1 cf2, (1 <= N)%Z -> corners_ok type fs cf1 cf2 ->
  exists b a, makeFilter (exact_arith csqrt) type N fs cf1 cf2 = Done (b, a) /\ good b a (if Req_EM_T cf2 0 then N else (2 * N)%Z) /\
    forall f, (- (fs / 2) < f < fs / 2)%R -> (Cmod (gain b a (osc fs f)) ^ 2 = butterworth type N (tn fs cf1) (tn fs cf2) (tn fs f))%R.
Proof.
  intros csqrt Hs type N fs cf1 cf2 HN HC. assert (F : (0 < fs)%R) by (destruct type; cbn in HC; lra). rewrite (makeFilter_tail csqrt) by assumption. cbv zeta.
  set (n := if Req_EM_T cf2 0 then N else (2 * N)%Z). assert (NN : (1 <= N <= n)%Z) by (unfold n; destruct (Req_EM_T cf2 0); lia).
  assert (T1 : (0 < tn fs cf1)%R) by (apply tn_pos; destruct type; cbn in HC; lra).
  change (tan (PI * cf1 / fs)) with (tn fs cf1). change (tan (PI * cf2 / fs)) with (tn fs cf2). set (t1 := tn fs cf1) in *. set (t2 := tn fs cf2).
  assert (BW : forall b a X Y f x2 y2, stable a -> (forall s u, 4 + s <> 0 -> u = (4 - s) / (4 + s) -> response b u * X s = Y s u * response a u) ->
    (- (fs / 2) < f < fs / 2)%R -> (let s := (Ci * RtoC (4 * tn fs f))%C in Cmod (X s) ^ 2 = x2 /\ Cmod (Y s (osc fs f)) ^ 2 = y2)%R -> (0 < x2)%R -> (Cmod (gain b a (osc fs f)) ^ 2 = y2 / x2)%R).
  { intros b a X Y f x2 y2 S H HF [HX HY] P. destruct (osc_bilinear fs f F HF) as [O1 O2]. eapply gain_mod; [apply S; rewrite osc_mod; lra|apply H; [exact O1|exact O2]|exact HX|exact HY|exact P]. }
  assert (UM : forall f k, (Cmod (cpow (osc fs f) k) = 1)%R) by (intros f k; rewrite cpow_mod, osc_mod; apply pow1).
  destruct type.
  - destruct (low_core csqrt N n (4 * t1) NN ltac:(lra)) as (b & a & E & G & _ & R). exists b, a. split; [exact E|]. split; [exact G|]. intros f HF. set (t := tn fs f).
    rewrite (BW b a _ _ f ((4 * t) ^ Z.to_nat (2 * N) + (4 * t1) ^ Z.to_nat (2 * N))%R ((4 * t1) ^ Z.to_nat (2 * N))%R (proj2 (proj2 (proj2 G))) R HF).
    + cbn [butterworth]. rewrite !scale_pow by lra. rewrite !rpow_div by lra. assert (Q1 := even_pos t1 N ltac:(lra)). assert (Q2 := even_pow t N). assert (Q4 := even_pos 4 N ltac:(lra)). field. repeat split; try lra. assert (Q5 := Rmult_lt_0_compat _ _ Q4 Q1). assert (Q6 := Rmult_le_pos _ _ (Rlt_le _ _ Q4) Q2). lra.
    + cbv zeta. split; [apply pole_square; exact HN|]. rewrite Cmod_mult, UM, Rmult_1_l. apply mod_pow_R. lia.
    + assert (Q1 := even_pos (4 * t1) N ltac:(lra)). assert (Q2 := even_pow (4 * t) N). lra.
  - destruct (high_core csqrt N n (4 * t1) NN ltac:(lra)) as (b & a & E & G & _ & R). exists b, a. split; [exact E|]. split; [exact G|]. intros f HF. set (t := tn fs f).
    rewrite (BW b a _ _ f ((4 * t1) ^ Z.to_nat (2 * N) + (4 * t) ^ Z.to_nat (2 * N))%R ((4 * t) ^ Z.to_nat (2 * N))%R (proj2 (proj2 (proj2 G))) R HF).
    + cbn [butterworth]. rewrite !scale_pow by lra. rewrite !rpow_div by lra. assert (Q1 := even_pos t1 N ltac:(lra)). assert (Q2 := even_pow t N). assert (Q4 := even_pos 4 N ltac:(lra)). field. repeat split; try lra. assert (Q5 := Rmult_lt_0_compat _ _ Q4 Q1). assert (Q6 := Rmult_le_pos _ _ (Rlt_le _ _ Q4) Q2). lra.
    + cbv zeta. split; [apply pole_square'; exact HN|]. rewrite Cmod_mult, UM, Rmult_1_l, mod_opp_pow. apply mod_pow_i. lia.
    + assert (Q1 := even_pos (4 * t1) N ltac:(lra)). assert (Q2 := even_pow (4 * t) N). lra.
  - destruct HC as [HC1 HC2]. assert (T2 : (t1 < t2)%R) by (apply tn_mono; lra). assert (NE : n = (2 * N)%Z) by (unfold n; destruct (Req_EM_T cf2 0); [lra|reflexivity]). rewrite NE.
    destruct (bandpass_core csqrt Hs N (4 * t1) (4 * t2) HN ltac:(lra)) as (b & a & E & G & _ & R). exists b, a. split; [exact E|]. split; [exact G|]. intros f HF. set (t := tn fs f).
    assert (PX : (0 < (16 * (t1 * t2 - t * t)) ^ Z.to_nat (2 * N) + (16 * ((t2 - t1) * t)) ^ Z.to_nat (2 * N))%R).
    { assert (Q1 := even_pow (16 * (t1 * t2 - t * t)) N). assert (Q2 := even_pow (16 * ((t2 - t1) * t)) N). destruct (Req_dec t 0) as [T0|T0].
      - assert (Q3 := even_pos (16 * (t1 * t2 - t * t)) N). assert (0 < t1 * t2)%R by (apply Rmult_lt_0_compat; lra). rewrite T0 in *. lra.
      - assert (Q3 := even_pos (16 * ((t2 - t1) * t)) N). assert ((t2 - t1) * t <> 0)%R by (apply Rmult_integral_contrapositive_currified; lra). lra. }
    rewrite (BW b a _ (fun s _ => _) f ((16 * (t1 * t2 - t * t)) ^ Z.to_nat (2 * N) + (16 * ((t2 - t1) * t)) ^ Z.to_nat (2 * N))%R ((16 * ((t2 - t1) * t)) ^ Z.to_nat (2 * N))%R (proj2 (proj2 (proj2 G))) R HF); [| |exact PX].
    + cbn [butterworth]. rewrite !(scale_pow 16) by lra. rewrite !(scale_pow 16) in PX by lra. assert (Q4 := even_pos 16 N ltac:(lra)).
      set (x := ((t1 * t2 - t * t) ^ Z.to_nat (2 * N))%R) in *. set (y := (((t2 - t1) * t) ^ Z.to_nat (2 * N))%R) in *. set (c := (16 ^ Z.to_nat (2 * N))%R) in *. clearbody x y c.
      assert (XY : (y + x)%R <> 0%R). { intros X. replace x with (- y)%R in PX by lra. lra. } field. split; [exact XY|]. lra.
    + cbv zeta. fold t. split.
      * rewrite <- pole_square' by exact HN. f_equal. f_equal. apply cprod_ext. intros i I. apply Ceq; destruct (pole N i); cbn; ring.
      * rewrite mod_opp_pow, <- (mod_pow_i (16 * ((t2 - t1) * t)) N) by lia. f_equal. f_equal. f_equal. apply Ceq; cbn; ring.
  - destruct HC as [HC1 HC2]. assert (T2 : (t1 < t2)%R) by (apply tn_mono; lra). assert (NE : n = (2 * N)%Z) by (unfold n; destruct (Req_EM_T cf2 0); [lra|reflexivity]). rewrite NE.
    destruct (bandstop_core csqrt Hs N (4 * t1) (4 * t2) HN ltac:(lra)) as (b & a & E & G & _ & R). exists b, a. split; [exact E|]. split; [exact G|]. intros f HF. set (t := tn fs f).
    assert (PX : (0 < (16 * ((t2 - t1) * t)) ^ Z.to_nat (2 * N) + (16 * (t1 * t2 - t * t)) ^ Z.to_nat (2 * N))%R).
    { assert (Q1 := even_pow (16 * (t1 * t2 - t * t)) N). assert (Q2 := even_pow (16 * ((t2 - t1) * t)) N). destruct (Req_dec t 0) as [T0|T0].
      - assert (Q3 := even_pos (16 * (t1 * t2 - t * t)) N). assert (0 < t1 * t2)%R by (apply Rmult_lt_0_compat; lra). rewrite T0 in *. lra.
      - assert (Q3 := even_pos (16 * ((t2 - t1) * t)) N). assert ((t2 - t1) * t <> 0)%R by (apply Rmult_integral_contrapositive_currified; lra). lra. }
    rewrite (BW b a _ (fun s _ => _) f ((16 * ((t2 - t1) * t)) ^ Z.to_nat (2 * N) + (16 * (t1 * t2 - t * t)) ^ Z.to_nat (2 * N))%R ((16 * (t1 * t2 - t * t)) ^ Z.to_nat (2 * N))%R (proj2 (proj2 (proj2 G))) R HF); [| |exact PX].
    + cbn [butterworth]. rewrite !(scale_pow 16) by lra. rewrite !(scale_pow 16) in PX by lra. assert (Q4 := even_pos 16 N ltac:(lra)).
      set (x := ((t1 * t2 - t * t) ^ Z.to_nat (2 * N))%R) in *. set (y := (((t2 - t1) * t) ^ Z.to_nat (2 * N))%R) in *. set (c := (16 ^ Z.to_nat (2 * N))%R) in *. clearbody x y c.
      assert (XY : (y + x)%R <> 0%R). { intros X. replace x with (- y)%R in PX by lra. lra. } field. split; [exact XY|]. lra.
    + cbv zeta. fold t. split.
      * rewrite <- pole_square by exact HN. f_equal. f_equal. apply cprod_ext. intros i I. apply Ceq; destruct (pole N i); cbn; ring.
      * rewrite <- (mod_pow_R (16 * (t1 * t2 - t * t)) N) by lia. f_equal. f_equal. f_equal. apply Ceq; cbn; ring.
Qed.
Print Assumptions C91_response.

(** At frequency zero and at the Nyquist frequency. *)
Lemma gain_zero b a u : response b u = 0 -> gain b a u = 0.
Proof. intros H. unfold gain. rewrite H. unfold Cdiv. ring. Qed.
Lemma butter_dc type N t1 t2 : (1 <= N)%Z -> (0 < t1)%R -> (match type with Bandpass | Bandstop => t1 < t2 | _ => True end)%R ->
  butterworth type N t1 t2 0 = (if passes_dc type then 1 else 0)%R.
Proof.
  intros HN T1 T2. assert (Z0 : (0 ^ Z.to_nat (2 * N) = 0)%R) by (apply pow_i; lia).
  destruct type; cbn [butterworth passes_dc]; cbv zeta; replace (0 / t1)%R with 0%R by (field; lra); rewrite ?Rmult_0_r, ?Z0.
  - field.
  - field.
  - unfold Rdiv. ring.
  - field. rewrite Rminus_0_r. assert (Q := even_pos (t1 * t2) N). assert (0 < t1 * t2)%R by (apply Rmult_lt_0_compat; lra). lra.
Qed.
Theorem C91_ends : forall csqrt, is_sqrt csqrt -> forall type N fs cf1 cf2, (1 <= N)%Z -> corners_ok type fs cf1 cf2 ->
  exists b a, makeFilter (exact_arith csqrt) type N fs cf1 cf2 = Done (b, a) /\
    Cmod (gain b a 1) = (if passes_dc type then 1 else 0)%R /\ Cmod (gain b a (- (1))) = (if passes_nyquist type then 1 else 0)%R.
Proof.
  intros csqrt Hs type N fs cf1 cf2 HN HC. destruct (C91_response csqrt Hs type N fs cf1 cf2 HN HC) as (b & a & E & G & R). exists b, a. split; [exact E|].
  assert (F : (0 < fs)%R) by (destruct type; cbn in HC; lra). assert (T1 : (0 < tn fs cf1)%R) by (apply tn_pos; destruct type; cbn in HC; lra). split.
  - assert (R0 := R 0%R ltac:(lra)). rewrite osc_0 in R0 by exact F. replace (tn fs 0) with 0%R in R0 by (unfold tn; replace (PI * 0 / fs)%R with 0%R by (field; lra); rewrite tan_0; reflexivity).
    rewrite butter_dc in R0; [|exact HN|exact T1|destruct type; try exact I; cbn in HC; apply tn_mono; lra]. assert (P := Cmod_ge_0 (gain b a 1)). destruct (passes_dc type).
    + apply Rsqr_inj; [exact P|lra|]. unfold Rsqr. lra.
    + apply Rsqr_eq_0. unfold Rsqr. lra.
  - destruct G as (_ & _ & _ & S). assert (SN : response a (- (1)) <> 0) by (apply S; rewrite Cmod_opp, Cmod_1; lra).
    rewrite (makeFilter_tail csqrt) in E by assumption. cbv zeta in E. set (n := if Req_EM_T cf2 0 then N else (2 * N)%Z) in E. assert (NN : (1 <= N <= n)%Z) by (unfold n; destruct (Req_EM_T cf2 0); lia).
    change (tan (PI * cf1 / fs)) with (tn fs cf1) in E. change (tan (PI * cf2 / fs)) with (tn fs cf2) in E.
    assert (UN : forall x b' a', x = Done (b', a') -> x = Done (b, a) -> b' = b /\ a' = a) by (intros x b' a' X Y; rewrite X in Y; injection Y as Y1 Y2; split; assumption).
    destruct type; cbn [passes_nyquist].
    + destruct (low_core csqrt N n (4 * tn fs cf1) NN ltac:(lra)) as (b' & a' & E' & _ & Q & _). destruct (UN _ _ _ E' E) as [-> ->]. rewrite gain_zero by exact Q. apply Cmod_0.
    + destruct (high_core csqrt N n (4 * tn fs cf1) NN ltac:(lra)) as (b' & a' & E' & _ & Q & _). destruct (UN _ _ _ E' E) as [-> ->]. unfold gain. rewrite Q. replace (cpow (- (1)) (Z.to_nat n) * response a (- (1)) / response a (- (1))) with (cpow (- (1)) (Z.to_nat n)) by (field; exact SN). rewrite cpow_mod, Cmod_opp, Cmod_1. apply pow1.
    + destruct HC as [HC1 HC2]. assert (T2 : (tn fs cf1 < tn fs cf2)%R) by (apply tn_mono; lra). assert (NE : n = (2 * N)%Z) by (unfold n; destruct (Req_EM_T cf2 0); [lra|reflexivity]). rewrite NE in E.
      destruct (bandpass_core csqrt Hs N (4 * tn fs cf1) (4 * tn fs cf2) HN ltac:(lra)) as (b' & a' & E' & _ & Q & _). destruct (UN _ _ _ E' E) as [-> ->]. rewrite gain_zero by exact Q. apply Cmod_0.
    + destruct HC as [HC1 HC2]. assert (T2 : (tn fs cf1 < tn fs cf2)%R) by (apply tn_mono; lra). assert (NE : n = (2 * N)%Z) by (unfold n; destruct (Req_EM_T cf2 0); [lra|reflexivity]). rewrite NE in E.
      destruct (bandstop_core csqrt Hs N (4 * tn fs cf1) (4 * tn fs cf2) HN ltac:(lra)) as (b' & a' & E' & _ & Q & _). destruct (UN _ _ _ E' E) as [-> ->]. unfold gain. rewrite Q. replace (response a (- (1)) / response a (- (1))) with (RtoC 1) by (field; exact SN). apply Cmod_1.
Qed.
Print Assumptions C91_ends.
(** The corner frequencies are the points of half power, whatever the order. *)
Theorem C91_half_power : forall csqrt, is_sqrt csqrt -> forall type N fs cf1 cf2, (1 <= N)%Z -> corners_ok type fs cf1 cf2 ->
  exists b a, makeFilter (exact_arith csqrt) type N fs cf1 cf2 = Done (b, a) /\
    (Cmod (gain b a (osc fs cf1)) ^ 2 = 1 / 2)%R /\ (match type with Bandpass | Bandstop => Cmod (gain b a (osc fs cf2)) ^ 2 = 1 / 2 | _ => True end)%R.
Proof.
  intros csqrt Hs type N fs cf1 cf2 HN HC. destruct (C91_response csqrt Hs type N fs cf1 cf2 HN HC) as (b & a & E & G & RR). exists b, a. split; [exact E|].
  assert (T1 : (0 < tn fs cf1)%R) by (apply tn_pos; destruct type; cbn in HC; lra).
  assert (EV : forall x : R, ((- x) ^ Z.to_nat (2 * N) = x ^ Z.to_nat (2 * N))%R) by (intros x; replace (Z.to_nat (2 * N)) with (2 * Z.to_nat N)%nat by lia; rewrite !pow_mult; f_equal; ring).
  assert (HV : forall x : R, x <> 0%R -> (x ^ Z.to_nat (2 * N) / (x ^ Z.to_nat (2 * N) + x ^ Z.to_nat (2 * N)) = 1 / 2)%R) by (intros x X; assert (Q := even_pos x N X); field; lra).
  split; [rewrite RR by (destruct type; cbn in HC; lra)|destruct type; try exact I; rewrite RR by (cbn in HC; lra)].
  - assert (D1 : (tn fs cf1 / tn fs cf1 = 1)%R) by (field; lra). destruct type; cbn [butterworth]; cbv zeta; rewrite ?D1, ?pow1; try lra; cbn in HC; assert (T2 : (tn fs cf1 < tn fs cf2)%R) by (apply tn_mono; lra);
    (replace (tn fs cf1 * tn fs cf2 - tn fs cf1 * tn fs cf1)%R with ((tn fs cf2 - tn fs cf1) * tn fs cf1)%R by ring); apply HV; assert (Q := Rmult_lt_0_compat (tn fs cf2 - tn fs cf1) (tn fs cf1) ltac:(lra) ltac:(lra)); lra.
  - cbn in HC. assert (T2 : (tn fs cf1 < tn fs cf2)%R) by (apply tn_mono; lra). cbn [butterworth]. cbv zeta. replace (tn fs cf1 * tn fs cf2 - tn fs cf2 * tn fs cf2)%R with (- ((tn fs cf2 - tn fs cf1) * tn fs cf2))%R by ring. rewrite EV. apply HV. assert (Q := Rmult_lt_0_compat (tn fs cf2 - tn fs cf1) (tn fs cf2) ltac:(lra) ltac:(lra)); lra.
  - cbn in HC. assert (T2 : (tn fs cf1 < tn fs cf2)%R) by (apply tn_mono; lra). cbn [butterworth]. cbv zeta. replace (tn fs cf1 * tn fs cf2 - tn fs cf2 * tn fs cf2)%R with (- ((tn fs cf2 - tn fs cf1) * tn fs cf2))%R by ring. rewrite EV. apply HV. assert (Q := Rmult_lt_0_compat (tn fs cf2 - tn fs cf1) (tn fs cf2) ltac:(lra) ltac:(lra)); lra.
Qed.
Print Assumptions C91_half_power.
(** Corners of 10 and 40 Hz at 500 samples a second. *)
Example ex_C91 : forall type, corners_ok type 500 10 40.
Proof. intros []; cbn; lra. Qed.

(** ---- C92 ---- *)
Theorem C92_stable : forall csqrt, is_sqrt csqrt -> forall type N fs cf1 cf2, (1 <= N)%Z -> corners_ok type fs cf1 cf2 ->
  exists b a, makeFilter (exact_arith csqrt) type N fs cf1 cf2 = Done (b, a) /\ nth_error a 0 = Some 1%R /\ stable a.
Proof.
  intros csqrt Hs type N fs cf1 cf2 HN HC. destruct (C91_response csqrt Hs type N fs cf1 cf2 HN HC) as (b & a & E & (_ & _ & A0 & S) & _). exists b, a. auto.
Qed.
Print Assumptions C92_stable.

(** ---- C93 ---- *)
Definition tN_of (A : arith) (N : Z) (cf2 : tv A) : Z := if t_zero A cf2 then N else (2 * N)%Z.
Theorem C93_inside : forall A type N fs cf1 cf2, (1 <= N)%Z -> (match type with Bandpass | Bandstop => t_zero A cf2 = false | _ => True end) ->
  exists b a, makeFilter A type N fs cf1 cf2 = Done (b, a) /\ zlen b = (tN_of A N cf2 + 1)%Z /\ zlen a = (tN_of A N cf2 + 1)%Z.
Proof.
  intros A type N fs cf1 cf2 HN HB. unfold makeFilter. fold (tN_of A N cf2). set (n := tN_of A N cf2). assert (NN : (N <= n)%Z) by (unfold n, tN_of; destruct (t_zero A cf2); lia).
  assert (NB : match type with Bandpass | Bandstop => n = (2 * N)%Z | _ => True end) by (unfold n, tN_of; destruct type; rewrite ?HB; auto).
  rewrite fill_ok by lia. cbn [obnd]. rewrite tab_repeat. set (p := fun k : Z => if (k <? N)%Z then proto A N k else cz A 0).
  assert (X : exists k zf pf, (match type with Lowpass => lowpass A N (tab n (fun _ => cz A 0)) (tab n p) (warp A cf1 fs) | Highpass => highpass A N (tab n (fun _ => cz A 0)) (tab n p) (warp A cf1 fs)
     | Bandpass => bandpass A N (tab n (fun _ => cz A 0)) (tab n p) (warp A cf1 fs) (warp A cf2 fs) | Bandstop => bandstop A N (tab n (fun _ => cz A 0)) (tab n p) (warp A cf1 fs) (warp A cf2 fs) end) = Done (k, tab n zf, tab n pf)).
  { destruct type.
    - rewrite lowpass_ok by lia. do 3 eexists. reflexivity.
    - rewrite highpass_ok by lia. do 3 eexists. reflexivity.
    - rewrite NB, bandpass_ok by lia. do 3 eexists. reflexivity.
    - rewrite NB, bandstop_ok by lia. do 3 eexists. reflexivity. }
  destruct X as (k & zf & pf & X). rewrite X. cbn [obnd]. unfold expandPoly. rewrite !expand_vec_ok by lia. cbn [obnd]. rewrite !tab_map.
  assert (SW := swap_ok (fun j => c_re A (ecoef A pf (Z.to_nat (n - 1)) j)) n ltac:(lia)).
  do 2 eexists. split; [exact (f_equal (fun o => obnd o (fun d => Done (_, d))) SW)|]. rewrite !tab_zlen by lia. split; reflexivity.
Qed.
Print Assumptions C93_inside.
Theorem C93_order_zero_refuted : forall A type fs cf1 cf2, makeFilter A type 0 fs cf1 cf2 = Undefined.
Proof.
  intros A type fs cf1 cf2. unfold makeFilter. replace (if t_zero A cf2 then 0%Z else (2 * 0)%Z) with 0%Z by (destruct (t_zero A cf2); reflexivity). destruct type; reflexivity.
Qed.
Print Assumptions C93_order_zero_refuted.
Theorem C93_band_without_corner_refuted : forall A N fs cf1 cf2, (1 <= N)%Z -> t_zero A cf2 = true -> makeFilter A Bandpass N fs cf1 cf2 = Undefined /\ makeFilter A Bandstop N fs cf1 cf2 = Undefined.
Proof.
  intros A N fs cf1 cf2 HN HZ.
  assert (B : forall f zl zr' len z p, band_split A f zl zr' len N (tab N z) (tab N p) = Undefined).
  { intros f zl zr' len z p. unfold band_split. assert (ZN : zr N = 0%Z :: map (Z.add 1) (zr (N - 1))) by (replace N with (1 + (N - 1))%Z at 1 by lia; rewrite zr_app by lia; reflexivity). rewrite ZN. cbn [app for_each]. rewrite tab_get by lia. cbn [obnd]. rewrite tab_set by lia. cbn [obnd].
    unfold zset at 1. rewrite tab_zlen by lia. destruct (Z.ltb_spec (N + 0) N); [lia|]. rewrite Bool.andb_false_r. reflexivity. }
  unfold makeFilter. rewrite HZ. rewrite fill_ok by lia. cbn [obnd]. rewrite tab_repeat. unfold bandpass, bandstop. rewrite !B. split; reflexivity.
Qed.
Print Assumptions C93_band_without_corner_refuted.
(** The program's own floats are one of the arithmetics. *)
Example ex_C93 : forall ftan fpow fpi csqrt cexp, t_zero (float_arith ftan fpow fpi csqrt cexp) FloatModel.f0 = true.
Proof. intros. vm_compute. reflexivity. Qed.
