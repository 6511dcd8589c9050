(** Complex products and sums, polynomials and the roots of -1, used for the filters. *)
From Coq Require Import Reals Lra Lia ZArith.
From Coquelicot Require Import Complex.
From Verif Require Import Base DataIOModel DataIOProofs SignalModel FilterModel FilterSpec FilterProofs.
Import ListNotations.
Open Scope R_scope.
Open Scope C_scope.

Lemma Ceq (a b : C) : Re a = Re b -> Im a = Im b -> a = b.
Proof. destruct a, b. cbn. intros -> ->. reflexivity. Qed.
Lemma RtoC_Re (a : C) : Im a = 0%R -> RtoC (Re a) = a.
Proof. destruct a. cbn. intros ->. reflexivity. Qed.
Lemma conj_real (a : C) : Cconj a = a <-> Im a = 0%R.
Proof. destruct a as [x y]. unfold Cconj; cbn. split; intros H; [injection H as H; lra|subst y; f_equal; lra]. Qed.
Lemma conj_add a b : Cconj (a + b) = Cconj a + Cconj b.
Proof. apply Ceq; destruct a, b; cbn; lra. Qed.
Lemma conj_sub a b : Cconj (a - b) = Cconj a - Cconj b.
Proof. apply Ceq; destruct a, b; cbn; lra. Qed.
Lemma conj_mul a b : Cconj (a * b) = Cconj a * Cconj b.
Proof. apply Ceq; destruct a, b; cbn; lra. Qed.
Lemma conj_inv a : Cconj (/ a) = / Cconj a.
Proof.
  apply Ceq; destruct a as [x y]; unfold Cinv, Cconj; cbn [fst snd Re Im]; replace ((- y) ^ 2)%R with (y ^ 2)%R by ring; unfold Rdiv; ring.
Qed.
Lemma conj_div a b : Cconj (a / b) = Cconj a / Cconj b.
Proof. unfold Cdiv. rewrite conj_mul, conj_inv. reflexivity. Qed.
Lemma conj_R r : Cconj (RtoC r) = RtoC r.
Proof. apply Ceq; cbn; lra. Qed.
Lemma conj_conj a : Cconj (Cconj a) = a.
Proof. apply Ceq; destruct a; cbn; lra. Qed.
Lemma RtoC_inj' a b : RtoC a = RtoC b -> a = b.
Proof. intros H. injection H. auto. Qed.
Lemma RtoC_0 : RtoC 0 = 0. Proof. reflexivity. Qed.
Lemma mod2 z : (Cmod z ^ 2)%R = (Re z ^ 2 + Im z ^ 2)%R.
Proof. unfold Cmod. rewrite pow2_sqrt; [reflexivity|]. apply Rplus_le_le_0_compat; apply pow2_ge_0. Qed.
Lemma RtoC_neq a : a <> 0%R -> RtoC a <> 0.
Proof. intros H E. apply H. apply RtoC_inj'. exact E. Qed.

(** ---- powers, products, sums ---- *)
Fixpoint cpow (x : C) (n : nat) : C := match n with O => 1 | S n => x * cpow x n end.
Fixpoint cprod (f : Z -> C) (n : nat) : C := match n with O => 1 | S n => cprod f n * f (Z.of_nat n) end.
Fixpoint csum (f : nat -> C) (n : nat) : C := match n with O => 0 | S n => csum f n + f n end.

Lemma cpow_mul x y n : cpow (x * y) n = cpow x n * cpow y n.
Proof. induction n; cbn [cpow]; [ring|rewrite IHn; ring]. Qed.
Lemma cpow_add x n m : cpow x (n + m) = cpow x n * cpow x m.
Proof. induction n; cbn [cpow Nat.add]; [ring|rewrite IHn; ring]. Qed.
Lemma cpow_R r n : cpow (RtoC r) n = RtoC (r ^ n).
Proof. induction n; cbn [cpow pow]; [reflexivity|rewrite IHn, RtoC_mult; reflexivity]. Qed.
Lemma cpow_1 n : cpow 1 n = 1.
Proof. induction n; cbn [cpow]; [reflexivity|rewrite IHn; ring]. Qed.
Lemma cpow_0 n : (1 <= n)%nat -> cpow 0 n = 0.
Proof. intros H. destruct n; [lia|]. cbn [cpow]. ring. Qed.
Lemma cpow_nz (x : C) n : x <> 0 -> cpow x n <> 0.
Proof. intros H. induction n; cbn [cpow]; [apply RtoC_neq; lra|apply Cmult_neq_0; assumption]. Qed.
Lemma cpow_mod x n : Cmod (cpow x n) = (Cmod x ^ n)%R.
Proof. induction n; cbn [cpow pow]; [apply Cmod_1|rewrite Cmod_mult, IHn; reflexivity]. Qed.
Lemma cpow_conj x n : Cconj (cpow x n) = cpow (Cconj x) n.
Proof. induction n; cbn [cpow]; [apply conj_R|rewrite conj_mul, IHn; reflexivity]. Qed.

Lemma cprod_ext f g n : (forall i, (0 <= i < Z.of_nat n)%Z -> f i = g i) -> cprod f n = cprod g n.
Proof. intros H. induction n; cbn [cprod]; [reflexivity|]. rewrite IHn, H; [reflexivity|lia|]. intros i I. apply H. lia. Qed.
Lemma cprod_mul f g n : cprod (fun i => f i * g i) n = cprod f n * cprod g n.
Proof. induction n; cbn [cprod]; [ring|rewrite IHn; ring]. Qed.
Lemma cprod_const c n : cprod (fun _ => c) n = cpow c n.
Proof. induction n; cbn [cprod cpow]; [reflexivity|rewrite IHn; ring]. Qed.
Lemma cprod_nz (f : Z -> C) n : (forall i, (0 <= i < Z.of_nat n)%Z -> f i <> 0) -> cprod f n <> 0.
Proof.
  intros H. induction n; cbn [cprod]; [apply RtoC_neq; lra|]. apply Cmult_neq_0; [apply IHn; intros i I; apply H; lia|apply H; lia].
Qed.
Lemma cprod_zero (f : Z -> C) n i : (0 <= i < Z.of_nat n)%Z -> f i = 0 -> cprod f n = 0.
Proof.
  intros I H. induction n; [lia|]. cbn [cprod]. destruct (Z.eq_dec i (Z.of_nat n)) as [->|NE]; [rewrite H; ring|]. rewrite IHn by lia. ring.
Qed.
Lemma cprod_app f n m : cprod f (n + m) = cprod f n * cprod (fun i => f (Z.of_nat n + i)%Z) m.
Proof.
  induction m; [rewrite Nat.add_0_r; cbn [cprod]; ring|]. rewrite Nat.add_succ_r. cbn [cprod]. rewrite IHm. replace (Z.of_nat (n + m)) with (Z.of_nat n + Z.of_nat m)%Z by lia. ring.
Qed.
Lemma cprod_first f n : cprod f (S n) = f 0%Z * cprod (fun i => f (i + 1)%Z) n.
Proof.
  change (S n) with (1 + n)%nat. rewrite cprod_app. cbn [cprod Z.of_nat]. rewrite (cprod_ext (fun i => f (Z.of_nat 1 + i)%Z) (fun i => f (i + 1)%Z)); [ring|]. intros i I. f_equal. lia.
Qed.
Lemma cprod_rev f n : cprod (fun i => f (Z.of_nat n - 1 - i)%Z) n = cprod f n.
Proof.
  revert f. induction n; intros f; [reflexivity|]. rewrite cprod_first. cbn [cprod]. rewrite <- (IHn f).
  replace (Z.of_nat (S n) - 1 - 0)%Z with (Z.of_nat n) by lia. rewrite Cmult_comm. f_equal. apply cprod_ext. intros i I. f_equal. lia.
Qed.
Lemma cprod_conj f n : Cconj (cprod f n) = cprod (fun i => Cconj (f i)) n.
Proof. induction n; cbn [cprod]; [apply conj_R|rewrite conj_mul, IHn; reflexivity]. Qed.
Lemma cprod_mod2 f n : (Cmod (cprod f n) ^ 2)%R = Re (cprod (fun i => RtoC (Cmod (f i) ^ 2)) n) /\ Im (cprod (fun i => RtoC (Cmod (f i) ^ 2)) n) = 0%R.
Proof.
  induction n as [|n [I1 I2]]; cbn [cprod].
  - rewrite Cmod_1. cbn. split; lra.
  - rewrite Cmod_mult, Rpow_mult_distr, I1. destruct (cprod (fun i => RtoC (Cmod (f i) ^ 2)) n) as [x y]. cbn [Re Im fst snd] in I2. subst y. cbn [Re Im fst snd Cmult RtoC]. split; ring.
Qed.
(** A sequence whose second half continues the first, taken in pairs. *)
Lemma cprod_pairs (g h : Z -> C) N F : (0 <= N)%Z -> (forall k, (0 <= k < N)%Z -> F k = g k) -> (forall k, (0 <= k < N)%Z -> F (N + k)%Z = h k) ->
  cprod F (Z.to_nat (2 * N)) = cprod (fun k => g k * h k) (Z.to_nat N).
Proof.
  intros H G Hh. replace (Z.to_nat (2 * N)) with (Z.to_nat N + Z.to_nat N)%nat by lia. rewrite cprod_app, cprod_mul. f_equal; apply cprod_ext; intros i I; [apply G; lia|].
  replace (Z.of_nat (Z.to_nat N)) with N by lia. apply Hh. lia.
Qed.

Lemma csum_ext f g n : (forall i, (i < n)%nat -> f i = g i) -> csum f n = csum g n.
Proof. intros H. induction n; cbn [csum]; [reflexivity|]. rewrite IHn, H; [reflexivity|lia|]. intros i I. apply H. lia. Qed.
Lemma csum_scal c f n : csum (fun i => c * f i) n = c * csum f n.
Proof. induction n; cbn [csum]; [ring|rewrite IHn; ring]. Qed.
Lemma csum_first f n : csum f (S n) = f O + csum (fun i => f (S i)) n.
Proof. induction n; [cbn; ring|]. cbn [csum] in *. rewrite IHn. ring. Qed.
Lemma csum_rev f n : csum (fun i => f (n - 1 - i)%nat) n = csum f n.
Proof.
  revert f. induction n; intros f; [reflexivity|]. rewrite csum_first. cbn [csum]. rewrite <- (IHn f). replace (S n - 1 - 0)%nat with n by lia. rewrite Cplus_comm. f_equal. apply csum_ext. intros i I. f_equal. lia.
Qed.

(** g 0 u^n + g 1 x u^(n-1) + ... + g n x^n *)
Definition hsum (n : nat) (g : Z -> C) (x u : C) : C := csum (fun k => g (Z.of_nat k) * cpow x k * cpow u (n - k)) (S n).
Lemma hsum_S n g x u : hsum (S n) g x u = u * hsum n g x u + g (Z.of_nat (S n)) * cpow x (S n).
Proof.
  assert (T : csum (fun k => g (Z.of_nat k) * cpow x k * cpow u (S n - k)) (S n) = u * csum (fun k => g (Z.of_nat k) * cpow x k * cpow u (n - k)) (S n)).
  { rewrite <- csum_scal. apply csum_ext. intros i I. replace (S n - i)%nat with (S (n - i)) by lia. cbn [cpow]. ring. }
  unfold hsum. rewrite <- T. change (csum ?f (S (S n))) with (csum f (S n) + f (S n)). cbn beta. rewrite Nat.sub_diag. change (cpow u 0) with (RtoC 1). ring.
Qed.
Lemma hsum_0 g x u : hsum 0 g x u = g 0%Z.
Proof. unfold hsum. cbn. ring. Qed.
Lemma hsum_ext n g h x u : (forall k, (0 <= k <= Z.of_nat n)%Z -> g k = h k) -> hsum n g x u = hsum n h x u.
Proof. intros H. unfold hsum. apply csum_ext. intros i I. rewrite H by lia. reflexivity. Qed.
Lemma hsum_flip n g x u : hsum n (fun k => g (Z.of_nat n - k)%Z) x u = hsum n g u x.
Proof.
  unfold hsum. rewrite <- (csum_rev (fun k => g (Z.of_nat k) * cpow u k * cpow x (n - k))). apply csum_ext. intros i I.
  replace (Z.of_nat (S n - 1 - i)) with (Z.of_nat n - Z.of_nat i)%Z by lia. replace (n - (S n - 1 - i))%nat with i by lia. replace (S n - 1 - i)%nat with (n - i)%nat by lia. ring.
Qed.

(** The coefficients of the program's polynomial multiplication. *)
Section Coef.
Context (csqrt : C -> C).
Definition ec (c : Z -> C) (m : nat) (k : Z) : C := ecoef (exact_arith csqrt) c m k.
Lemma ecoef_lead c m : ec c m (Z.of_nat m + 1)%Z = 1.
Proof.
  unfold ec. destruct m; cbn [ecoef].
  - reflexivity.
  - destruct (Z.eqb_spec (Z.of_nat (S m) + 1) 0); [lia|]. rewrite Z.eqb_refl. reflexivity.
Qed.
Lemma ecoef_0 c m : ec c (S m) 0%Z = ec c m 0%Z * - c (Z.of_nat (S m)).
Proof. reflexivity. Qed.
Lemma ecoef_mid c m k : (1 <= k <= Z.of_nat m + 1)%Z -> ec c (S m) k = ec c m k * - c (Z.of_nat (S m)) + ec c m (k - 1)%Z.
Proof.
  intros K. unfold ec. cbn [ecoef]. destruct (Z.eqb_spec k 0); [lia|]. destruct (Z.eqb_spec k (Z.of_nat (S m) + 1)); [lia|]. reflexivity.
Qed.
Lemma hsum_ecoef c m x u : hsum (S m) (ec c m) x u = cprod (fun i => x - c i * u) (S m).
Proof.
  induction m.
  - rewrite hsum_S, hsum_0. cbn [cprod]. change (Z.of_nat 1) with (Z.of_nat 0 + 1)%Z. rewrite ecoef_lead. change (ec c 0 0%Z) with (- c 0%Z). change (Z.of_nat 0) with 0%Z. cbn [cpow]. ring.
  - set (c' := c (Z.of_nat (S m))). assert (P : forall j, (S j <= S m)%nat -> hsum (S j) (ec c (S m)) x u = - c' * hsum (S j) (ec c m) x u + x * hsum j (ec c m) x u).
    { induction j; intros J.
      - rewrite !hsum_S, !hsum_0. rewrite ecoef_0, ecoef_mid by lia. fold c'. replace (Z.of_nat 1 - 1)%Z with 0%Z by lia. cbn [cpow]. ring.
      - rewrite hsum_S, IHj by lia. rewrite (hsum_S (S j) (ec c m)), (hsum_S j (ec c m)). rewrite ecoef_mid by lia. fold c'. replace (Z.of_nat (S (S j)) - 1)%Z with (Z.of_nat (S j)) by lia. cbn [cpow]. ring. }
    rewrite hsum_S, P by lia. replace (Z.of_nat (S (S m))) with (Z.of_nat (S m) + 1)%Z by lia. rewrite ecoef_lead. change (cprod ?f (S (S m))) with (cprod f (S m) * f (Z.of_nat (S m))). cbn beta. fold c'. rewrite <- IHm.
    rewrite (hsum_S m (ec c m)). replace (Z.of_nat (S m)) with (Z.of_nat m + 1)%Z by lia. rewrite ecoef_lead. cbn [cpow]. ring.
Qed.
End Coef.

(** A polynomial that is zero at every real number has no coefficients. *)
Lemma hsum_lin n g h a b x u : hsum n (fun k => a * g k + b * h k) x u = a * hsum n g x u + b * hsum n h x u.
Proof. induction n; [rewrite !hsum_0; ring|]. rewrite !hsum_S, IHn. ring. Qed.
Lemma hsum_scale n g (t x : C) : hsum n g (t * x) 1 = hsum n (fun k => cpow t (Z.to_nat k) * g k) x 1.
Proof.
  induction n; [rewrite !hsum_0; cbn; ring|]. rewrite !hsum_S, IHn, Nat2Z.id, cpow_mul. ring.
Qed.
Lemma zero_coef n : forall g, (forall x : R, hsum n g (RtoC x) 1 = 0) -> forall k, (0 <= k <= Z.of_nat n)%Z -> g k = 0.
Proof.
  induction n; intros g H k K.
  - replace k with 0%Z by lia. rewrite <- (H 0%R), hsum_0. reflexivity.
  - set (d := fun k : Z => (cpow 2 (Z.to_nat k) - cpow 2 (S n)) * g k).
    assert (D : forall k, (0 <= k <= Z.of_nat n)%Z -> d k = 0).
    { apply IHn. intros x. assert (T := H (2 * x)%R). rewrite RtoC_mult, hsum_scale in T. assert (T2 := H x).
      assert (Q : hsum (S n) d (RtoC x) 1 = 0).
      { unfold d. rewrite (hsum_ext _ _ (fun k => 1 * (cpow 2 (Z.to_nat k) * g k) + (- cpow 2 (S n)) * g k)) by (intros; ring). rewrite hsum_lin, T, T2. ring. }
      rewrite hsum_S in Q. unfold d at 2 in Q. rewrite Nat2Z.id in Q. rewrite <- Q. ring. }
    assert (Lo : forall k, (0 <= k <= Z.of_nat n)%Z -> g k = 0).
    { intros j J. assert (Dj := D j J). unfold d in Dj. rewrite !cpow_R, <- RtoC_minus in Dj.
      assert (NZ : (2 ^ Z.to_nat j - 2 ^ S n)%R <> 0%R) by (assert (Q := Rlt_pow 2 (Z.to_nat j) (S n) ltac:(lra) ltac:(lia)); lra).
      apply RtoC_neq in NZ. set (a := RtoC (2 ^ Z.to_nat j - 2 ^ S n)) in *. clearbody a. replace (g j) with (/ a * (a * g j)) by (field; exact NZ). rewrite Dj. ring. }
    destruct (Z.eq_dec k (Z.of_nat (S n))) as [->|NE]; [|apply Lo; lia].
    assert (T := H 1%R). rewrite hsum_S, cpow_1 in T. assert (Z0 : hsum n g 1 1 = 0).
    { rewrite (hsum_ext n g (fun _ => 0 * 0 + 0 * 0)) by (intros j J; rewrite Lo by lia; ring). rewrite (hsum_lin n (fun _ => 0) (fun _ => 0)). ring. }
    rewrite Z0 in T. rewrite <- T. ring.
Qed.
Lemma hsum_im n g (x : R) : hsum n (fun k => RtoC (Im (g k))) (RtoC x) 1 = RtoC (Im (hsum n g (RtoC x) 1)).
Proof.
  induction n; [rewrite !hsum_0; reflexivity|]. rewrite !hsum_S, IHn, !cpow_R, <- !RtoC_mult, <- RtoC_plus. f_equal.
  destruct (hsum n g (RtoC x) 1) as [p q], (g (Z.of_nat (S n))) as [r s]. unfold Re, Im, Cplus, Cmult, RtoC, fst, snd. ring.
Qed.
Lemma real_coef n g : (forall x : R, Im (hsum n g (RtoC x) 1) = 0%R) -> forall k, (0 <= k <= Z.of_nat n)%Z -> Im (g k) = 0%R.
Proof.
  intros H k K. apply RtoC_inj'. apply (zero_coef n (fun k => RtoC (Im (g k)))); [|exact K]. intros x. rewrite hsum_im, H. reflexivity.
Qed.

(** ---- responses ---- *)
Lemma response_tab (n : nat) : forall g u, response (tab (Z.of_nat n) g) u = csum (fun k => RtoC (g (Z.of_nat k)) * cpow u k) n.
Proof.
  induction n; intros g u; [reflexivity|]. rewrite csum_first. change (cpow u 0) with (RtoC 1). change (Z.of_nat 0) with 0%Z.
  assert (T : tab (Z.of_nat (S n)) g = g 0%Z :: tab (Z.of_nat n) (fun k => g (k + 1)%Z)).
  { apply SignalProofs.nth_error_ext. intros k. destruct (Nat.ltb_spec k (S n)) as [L|L].
    - rewrite tab_nth by lia. destruct k; [reflexivity|]. cbn [nth_error]. rewrite tab_nth by lia. f_equal. f_equal. lia.
    - transitivity (@None R); [|symmetry]; apply nth_error_None; [rewrite tab_len|cbn [length]; rewrite tab_len]; lia. }
  rewrite T. cbn [response]. rewrite IHn. rewrite <- csum_scal. f_equal; [ring|]. apply csum_ext. intros i I. replace (Z.of_nat (S i)) with (Z.of_nat i + 1)%Z by lia. cbn [cpow]. ring.
Qed.
Lemma response_hsum (n : nat) g u : response (tab (Z.of_nat n + 1) g) u = hsum n (fun k => RtoC (g k)) u 1.
Proof.
  replace (Z.of_nat n + 1)%Z with (Z.of_nat (S n)) by lia. rewrite response_tab. unfold hsum. apply csum_ext. intros i I. rewrite cpow_1. ring.
Qed.

(** ---- polynomials with distinct roots ---- *)
Fixpoint deg (n : nat) (f : C -> C) : Prop :=
  match n with O => forall x, f x = 0 | S n => exists c g, deg n g /\ forall x, f x = c + x * g x end.
Lemma deg_ext n : forall f g, (forall x, f x = g x) -> deg n f -> deg n g.
Proof.
  destruct n; intros f g H D; cbn [deg] in *; [intros x; rewrite <- H; apply D|]. destruct D as (c & h & Dh & Q). exists c, h. split; [exact Dh|]. intros x. rewrite <- H. apply Q.
Qed.
Lemma deg_add n : forall f g, deg n f -> deg n g -> deg n (fun x => f x + g x).
Proof.
  induction n; intros f g F G; cbn [deg] in *; [intros x; rewrite F, G; ring|]. destruct F as (c & f' & F & Qf), G as (d & g' & G & Qg).
  exists (c + d), (fun x => f' x + g' x). split; [apply IHn; assumption|]. intros x. rewrite Qf, Qg. ring.
Qed.
Lemma deg_scal n : forall f a, deg n f -> deg n (fun x => a * f x).
Proof.
  induction n; intros f a F; cbn [deg] in *; [intros x; rewrite F; ring|]. destruct F as (c & f' & F & Qf). exists (a * c), (fun x => a * f' x). split; [apply IHn; exact F|]. intros x. rewrite Qf. ring.
Qed.
Lemma deg_zero n : deg n (fun _ => 0).
Proof. induction n; cbn [deg]; [reflexivity|]. exists 0, (fun _ => 0). split; [exact IHn|]. intros x. ring. Qed.
Lemma deg_const n (c : C) : deg (S n) (fun _ => c).
Proof. exists c, (fun _ => 0). split; [apply deg_zero|]. intros x. ring. Qed.
Lemma deg_up n : forall f, deg n f -> deg (S n) f.
Proof.
  induction n; intros f F.
  - exists 0, (fun _ => 0). split; [apply deg_zero|]. intros x. rewrite F. ring.
  - destruct F as (c & g & G & Q). exists c, g. split; [apply IHn; exact G|exact Q].
Qed.
Lemma deg_shift n f : deg n f -> deg (S n) (fun x => x * f x).
Proof. intros F. exists 0, f. split; [exact F|]. intros x. ring. Qed.
Lemma deg_pow n : deg (S n) (fun x => cpow x n).
Proof. induction n; [exact (deg_const 0 1)|]. cbn [cpow]. apply deg_shift. exact IHn. Qed.
Lemma deg_divide n : forall f r, deg (S n) f -> exists q, deg n q /\ forall x, f x = f r + (x - r) * q x.
Proof.
  induction n; intros f r (c & g & G & Q).
  - exists (fun _ => 0). split; [apply (deg_zero 0)|]. intros x. rewrite !Q, !G. ring.
  - destruct (IHn g r G) as (q & Dq & Qq). exists (fun x => g x + r * q x). split; [apply deg_add; [exact G|apply deg_up, deg_scal; exact Dq]|].
    intros x. rewrite !Q. rewrite (Qq x). ring.
Qed.
Lemma Cmul_zero (a b : C) : a * b = 0 -> a <> 0 -> b = 0.
Proof. intros H NZ. replace b with (/ a * (a * b)) by (field; exact NZ). rewrite H. ring. Qed.
Lemma deg_roots n : forall f (r : Z -> C), deg n f -> (forall i, (0 <= i < Z.of_nat n)%Z -> f (r i) = 0) ->
  (forall i j, (0 <= i < j)%Z -> (j < Z.of_nat n)%Z -> r i <> r j) -> forall x, f x = 0.
Proof.
  induction n; intros f r F H D; [exact F|]. destruct (deg_divide n f (r (Z.of_nat n)) F) as (q & Dq & Q).
  assert (Z0 : forall x, q x = 0).
  { apply (IHn q r Dq).
    - intros i I. assert (T := H i ltac:(lia)). rewrite Q, H in T by lia. apply (Cmul_zero (r i - r (Z.of_nat n))).
      + rewrite <- T. ring.
      + intros X. apply (D i (Z.of_nat n)); [lia|lia|]. replace (r i) with ((r i - r (Z.of_nat n)) + r (Z.of_nat n)) by ring. rewrite X. ring.
    - intros i j I J. apply D; lia. }
  intros x. rewrite Q, H, Z0 by lia. ring.
Qed.
Lemma monic_prod (r : Z -> C) n : exists g, deg n g /\ forall x, cprod (fun i => x - r i) n = cpow x n + g x.
Proof.
  induction n as [|n (g & G & Q)]; [exists (fun _ => 0); split; [apply (deg_zero 0)|intros; cbn; ring]|].
  exists (fun x => x * g x + (- r (Z.of_nat n)) * (cpow x n + g x)). split.
  - apply deg_add; [apply deg_shift; exact G|]. apply deg_scal, deg_add; [apply deg_pow|apply deg_up; exact G].
  - intros x. cbn [cprod cpow]. rewrite Q. ring.
Qed.
(** A polynomial x^n + c with n distinct roots is the product over its roots. *)
Lemma root_factors n (r : Z -> C) (c : C) : (1 <= n)%nat -> (forall i, (0 <= i < Z.of_nat n)%Z -> cpow (r i) n = - c) ->
  (forall i j, (0 <= i < j)%Z -> (j < Z.of_nat n)%Z -> r i <> r j) -> forall x, cprod (fun i => x - r i) n = cpow x n + c.
Proof.
  intros N H D x. destruct (monic_prod r n) as (g & G & Q).
  assert (Z0 : forall x, g x + - c = 0).
  { apply (deg_roots n _ r); [|intros i I|exact D].
    - apply deg_add; [exact G|]. destruct n; [lia|]. apply deg_const.
    - assert (T := Q (r i)). rewrite (cprod_zero _ n i), H in T by (try lia; ring). rewrite Cplus_comm. symmetry. exact T. }
  rewrite Q. replace (g x) with ((g x + - c) + c) by ring. rewrite Z0. ring.
Qed.

(** ---- points of the unit circle ---- *)
Definition cis (t : R) : C := (cos t, sin t).
Lemma cis_add a b : cis a * cis b = cis (a + b).
Proof. unfold cis. rewrite cos_plus, sin_plus. apply Ceq; cbn; ring. Qed.
Lemma cis_0 : cis 0 = 1.
Proof. unfold cis. rewrite cos_0, sin_0. reflexivity. Qed.
Lemma cis_conj t : Cconj (cis t) = cis (- t).
Proof. unfold cis, Cconj. rewrite cos_neg, sin_neg. reflexivity. Qed.
Lemma cis_pow t n : cpow (cis t) n = cis (INR n * t).
Proof.
  induction n; [cbn [cpow INR]; rewrite Rmult_0_l, cis_0; reflexivity|]. cbn [cpow]. rewrite IHn, cis_add. f_equal. rewrite S_INR. ring.
Qed.
Lemma cis_mod t : Cmod (cis t) = 1%R.
Proof.
  unfold Cmod, cis. cbn [fst snd]. rewrite <- sqrt_1. f_equal. assert (H := sin2_cos2 t). unfold Rsqr in H. rewrite <- H. ring.
Qed.
Lemma cis_inj a b : (0 < b - a < 2 * PI)%R -> cis a <> cis b.
Proof.
  intros H X. assert (Y : cis (b - a) = 1). { replace (b - a)%R with (b + - a)%R by ring. rewrite <- cis_add, <- X, cis_add. replace (a + - a)%R with 0%R by ring. apply cis_0. }
  unfold cis in Y. apply (f_equal Re) in Y. cbn in Y. assert (S := cos_2a_sin ((b - a) / 2)). replace (2 * ((b - a) / 2))%R with (b - a)%R in S by field. rewrite Y in S.
  assert (P := sin_gt_0 ((b - a) / 2) ltac:(lra) ltac:(lra)). assert (Q := Rmult_lt_0_compat _ _ P P). lra.
Qed.
Lemma cis_period t (k : nat) : cis (t + 2 * INR k * PI) = cis t.
Proof. unfold cis. rewrite cos_period, sin_period. reflexivity. Qed.

(** The 2N angles of the 2N-th roots of -1. *)
Definition psi (N j : Z) : R := (PI * (2 * IZR j + 1) / (2 * IZR N))%R.
Lemma psi_root N j : (1 <= N)%Z -> (0 <= j)%Z -> cpow (cis (psi N j)) (Z.to_nat (2 * N)) = - (1).
Proof.
  intros H J. rewrite cis_pow, INR_IZR_INZ. replace (Z.of_nat (Z.to_nat (2 * N))) with (2 * N)%Z by lia. rewrite mult_IZR. unfold psi.
  assert (P : (0 < IZR N)%R) by (apply (IZR_lt 0); lia).
  replace (2 * IZR N * (PI * (2 * IZR j + 1) / (2 * IZR N)))%R with (PI + 2 * INR (Z.to_nat j) * PI)%R.
  - rewrite cis_period. unfold cis. rewrite cos_PI, sin_PI. apply Ceq; cbn; lra.
  - rewrite INR_IZR_INZ, Z2Nat.id by lia. field. lra.
Qed.
Lemma psi_mirror N j : (1 <= N)%Z -> cis (psi N (2 * N - 1 - j)) = Cconj (cis (psi N j)).
Proof.
  intros H. rewrite cis_conj. assert (P : (0 < IZR N)%R) by (apply (IZR_lt 0); lia). rewrite <- (cis_period (- psi N j) 1). f_equal. unfold psi. rewrite !minus_IZR, mult_IZR. cbn [INR]. field. lra.
Qed.
Lemma minus_one_factors N (x : C) : (1 <= N)%Z -> cprod (fun i => x * x - 2 * RtoC (cos (psi N i)) * x + 1) (Z.to_nat N) = cpow x (Z.to_nat (2 * N)) + 1.
Proof.
  intros H. assert (P : (0 < IZR N)%R) by (apply (IZR_lt 0); lia).
  rewrite <- (root_factors (Z.to_nat (2 * N)) (fun i => cis (psi N i))); [|lia| |].
  - replace (Z.to_nat (2 * N)) with (Z.to_nat N + Z.to_nat N)%nat by lia. rewrite cprod_app.
    rewrite <- (cprod_rev (fun i => x - cis (psi N (Z.of_nat (Z.to_nat N) + i)))). rewrite <- cprod_mul. apply cprod_ext. intros i I.
    replace (Z.of_nat (Z.to_nat N) + (Z.of_nat (Z.to_nat N) - 1 - i))%Z with (2 * N - 1 - i)%Z by lia. rewrite psi_mirror by exact H.
    assert (S := sin2_cos2 (psi N i)). unfold Rsqr in S. destruct x as [a b]. unfold cis, Cconj. cbn [fst snd]. apply Ceq; cbn; [|ring].
    replace (sin (psi N i) * sin (psi N i))%R with (1 - cos (psi N i) * cos (psi N i))%R by lra.
    transitivity (a * a - b * b - 2 * cos (psi N i) * a + (sin (psi N i) * sin (psi N i) + cos (psi N i) * cos (psi N i)))%R; [rewrite S; ring|ring].
  - intros i I. rewrite psi_root by lia. ring.
  - intros i j I J. apply cis_inj. unfold psi. rewrite Z2Nat.id in J by lia.
    assert (Q1 : (1 <= IZR j - IZR i)%R) by (rewrite <- minus_IZR; apply (IZR_le 1); lia). assert (Q2 : (IZR j - IZR i <= 2 * IZR N - 1)%R) by (rewrite <- minus_IZR, <- mult_IZR, <- minus_IZR; apply IZR_le; lia).
    replace (PI * (2 * IZR j + 1) / (2 * IZR N) - PI * (2 * IZR i + 1) / (2 * IZR N))%R with (PI * ((IZR j - IZR i) / IZR N))%R by (field; lra). assert (PP := PI_RGT_0).
    assert (D1 : (0 < (IZR j - IZR i) / IZR N)%R) by (apply Rdiv_lt_0_compat; lra). assert (D2 : ((IZR j - IZR i) / IZR N < 2)%R).
    { apply (Rmult_lt_reg_r (IZR N)); [lra|]. unfold Rdiv. rewrite Rmult_assoc, Rinv_l, Rmult_1_r by lra. lra. }
    split; [apply Rmult_lt_0_compat; lra|]. rewrite (Rmult_comm 2). apply Rmult_lt_compat_l; lra.
Qed.
