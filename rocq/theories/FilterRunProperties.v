(** C89, C90: applying a filter. *)
From Coq Require Import Reals Lra Lia ZArith.
From Coquelicot Require Import Complex.
From Flocq Require Import IEEE754.Binary.
From Verif Require Import Base DataIOModel DataIOProofs FloatModel SignalModel SignalProofs FilterModel FilterSpec FilterProofs FilterAlgebra FilterExact FilterProperties GainProperties.
Import ListNotations.
Open Scope R_scope.
Open Scope Z_scope.

Section Run.
Context (csqrt : C -> C).
Notation E := (exact_arith csqrt).
Lemma sum_ext n f g : (forall j, 0 <= j < Z.of_nat n -> f j = g j) -> sum_to n f = sum_to n g.
Proof. intros H. induction n; cbn [sum_to]; [reflexivity|]. rewrite IHn, H; [reflexivity|lia|]. intros j J. apply H. lia. Qed.
Lemma sum_first n f : sum_to (S n) f = (f 0%Z + sum_to n (fun j => f (j + 1)%Z))%R.
Proof. induction n; [cbn; ring|]. change (sum_to (S (S n)) f) with (sum_to (S n) f + f (Z.of_nat (S n)))%R. rewrite IHn. cbn [sum_to]. replace (Z.of_nat (S n)) with (Z.of_nat n + 1) by lia. ring. Qed.
Lemma sum_lin n f g p q : sum_to n (fun j => (p * f j + q * g j)%R) = (p * sum_to n f + q * sum_to n g)%R.
Proof. induction n; cbn [sum_to]; [ring|rewrite IHn; ring]. Qed.
Lemma zget_at (l : list R) i : 0 <= i < zlen l -> zget l i = Done (at_ l i).
Proof. intros H. rewrite (tab_of 0%R l) at 1. rewrite tab_get by exact H. reflexivity. Qed.
Lemma at_app (l r : list R) i : 0 <= i < zlen l -> at_ (l ++ r) i = at_ l i.
Proof. intros H. unfold at_. apply app_nth1. unfold zlen in H. lia. Qed.
Lemma at_last (l : list R) y : at_ (l ++ [y]) (zlen l) = y.
Proof. unfold at_, zlen. rewrite Nat2Z.id, app_nth2, Nat.sub_diag by lia. reflexivity. Qed.
Lemma zlen_app1 (l : list R) y : zlen (l ++ [y]) = zlen l + 1.
Proof. unfold zlen. rewrite app_length. cbn [length]. lia. Qed.
Lemma conv_first c v i m : 0 <= m -> conv c v i m = (at_ c 0 * at_ v i + sum_to (Z.to_nat m) (fun j => at_ c (j + 1) * at_ v (i - (j + 1))))%R.
Proof. intros H. unfold conv. replace (Z.to_nat (m + 1)) with (S (Z.to_nat m)) by lia. rewrite sum_first. replace (i - 0) with i by lia. reflexivity. Qed.
Lemma conv_ext c v v' i m : 0 <= m -> (forall j, i - m <= j <= i -> at_ v j = at_ v' j) -> conv c v i m = conv c v' i m.
Proof. intros M H. unfold conv. apply sum_ext. intros j J. rewrite H by lia. reflexivity. Qed.

Lemma terms_ok N (b a x ys : list R) i m (start : R) : zlen b = N + 1 -> zlen a = N + 1 -> 0 <= m <= N -> m <= i -> i < zlen x -> zlen ys = i ->
  iir_terms E b a x ys i m start = Done (start + sum_to (Z.to_nat m) (fun j => at_ b (j + 1) * at_ x (i - (j + 1)) - at_ a (j + 1) * at_ ys (i - (j + 1))))%R.
Proof.
  intros LB LA M MI IX LY. unfold iir_terms. set (f := fun j => (at_ b (j + 1) * at_ x (i - (j + 1)) - at_ a (j + 1) * at_ ys (i - (j + 1)))%R).
  replace start with (start + sum_to (Z.to_nat 0) f)%R at 1 by (cbn; ring). apply (for_states _ (fun j => (start + sum_to (Z.to_nat j) f)%R)); [lia|].
  intros j J. cbv zeta. repeat (rewrite zget_at by lia; cbn [obnd]). f_equal.
  replace (Z.to_nat (j + 1)) with (S (Z.to_nat j)) by lia. cbn [sum_to]. rewrite Z2Nat.id by lia. unfold f at 3. cbn [t_add t_sub t_mul E exact_arith]. match goal with |- @eq _ ?l ?r => change (@eq R l r) end. ring.
Qed.
Lemma at_ok N (b a x zi ys : list R) i : 1 <= N -> zlen b = N + 1 -> zlen a = N + 1 -> zlen zi = N -> 0 <= i < zlen x -> zlen ys = i ->
  iir_at E N b a x zi ys i = Done (conv b x i (Z.min i N) + (if i <? N then at_ zi i else 0) - sum_to (Z.to_nat (Z.min i N)) (fun j => at_ a (j + 1) * at_ ys (i - (j + 1))))%R.
Proof.
  intros HN LB LA LZ I LY. unfold iir_at. repeat (rewrite zget_at by lia; cbn [obnd]).
  assert (SP : forall n, sum_to n (fun j => at_ b (j + 1) * at_ x (i - (j + 1)) - at_ a (j + 1) * at_ ys (i - (j + 1)))%R = (sum_to n (fun j => at_ b (j + 1) * at_ x (i - (j + 1))) - sum_to n (fun j => at_ a (j + 1) * at_ ys (i - (j + 1))))%R).
  { intros n. induction n; cbn [sum_to]; [ring|rewrite IHn; ring]. }
  rewrite conv_first by lia. destruct (Z.ltb_spec i N).
  - rewrite zget_at by lia. cbn [obnd]. rewrite Z.min_l by lia. rewrite (terms_ok N) by lia. f_equal. rewrite SP. cbn [t_add t_mul E exact_arith]. match goal with |- @eq _ ?l ?r => change (@eq R l r) end. ring.
  - rewrite Z.min_r by lia. rewrite (terms_ok N) by lia. f_equal. rewrite SP. cbn [t_add t_mul E exact_arith]. match goal with |- @eq _ ?l ?r => change (@eq R l r) end. ring.
Qed.
Lemma run_ok N (b a x zi : list R) : 1 <= N -> zlen b = N + 1 -> zlen a = N + 1 -> zlen zi = N -> at_ a 0 = 1%R -> forall m : nat, Z.of_nat m <= zlen x ->
  exists ys : list R, for_each (fun i ys => obnd (iir_at E N b a x zi ys i) (fun y => Done (ys ++ [y]))) (zr (Z.of_nat m)) [] = Done ys /\ zlen ys = Z.of_nat m /\
    forall i, 0 <= i < Z.of_nat m -> conv a ys i (Z.min i N) = (conv b x i (Z.min i N) + (if i <? N then at_ zi i else 0))%R.
Proof.
  intros HN LB LA LZ A0. induction m; intros M.
  - exists []. split; [reflexivity|]. split; [reflexivity|]. intros i I. lia.
  - destruct (IHm ltac:(lia)) as (ys & R1 & L1 & Q1). replace (Z.of_nat (S m)) with (Z.of_nat m + 1) by lia. rewrite zr_app by lia. change (zr 1) with [0]. cbn [map]. rewrite for_each_app, R1. cbn [obnd for_each]. rewrite Z.add_0_r.
    rewrite at_ok by lia. cbn [obnd]. eexists. split; [reflexivity|]. rewrite zlen_app1, L1. split; [reflexivity|]. intros i I.
    destruct (Z.eq_dec i (Z.of_nat m)) as [->|NE].
    + rewrite conv_first by lia. rewrite A0. assert (LT : forall y : R, at_ (ys ++ [y]) (Z.of_nat m) = y) by (intros y; rewrite <- L1; apply at_last). match goal with |- context [at_ ?L (Z.of_nat m)] => match L with app _ [?v] => change L with (@app R ys [v]) end end. rewrite LT.
      rewrite (sum_ext _ (fun j => (at_ a (j + 1) * at_ (ys ++ [_]) (Z.of_nat m - (j + 1)))%R) (fun j => (at_ a (j + 1) * at_ ys (Z.of_nat m - (j + 1)))%R)) by (intros j J; rewrite at_app by lia; reflexivity). ring.
    + transitivity (conv a ys i (Z.min i N)); [|apply Q1; lia]. apply conv_ext; [lia|]. intros j J. destruct (Z_lt_ge_dec j 0) as [Z0|Z0]; [exfalso; lia|]. apply at_app. lia.
Qed.
Lemma answers_unique N b a x zi y y' : 0 <= N -> at_ a 0 = 1%R -> answers N b a x zi y -> answers N b a x zi y' -> y' = y.
Proof.
  intros HN A0 [L H] [L' H'].
  assert (P : forall n : nat, forall i, 0 <= i < Z.of_nat n -> i < zlen x -> at_ y' i = at_ y i).
  { induction n; intros i I X; [lia|]. destruct (Z.eq_dec i (Z.of_nat n)) as [->|NE]; [|apply IHn; lia]. assert (Q := H (Z.of_nat n) ltac:(lia)). assert (Q' := H' (Z.of_nat n) ltac:(lia)). rewrite <- Q in Q'.
    rewrite !conv_first, A0 in Q' by lia. rewrite (sum_ext _ (fun j => (at_ a (j + 1) * at_ y' (Z.of_nat n - (j + 1)))%R) (fun j => (at_ a (j + 1) * at_ y (Z.of_nat n - (j + 1)))%R)) in Q'; [lra|].
    intros j J. rewrite IHn by lia. reflexivity. }
  rewrite (tab_of 0%R y), (tab_of 0%R y'). rewrite L, L'. apply tab_ext. intros k K. apply (P (S (Z.to_nat k))); lia.
Qed.
Lemma IIR_ok N (b a x zi : list R) : 1 <= N <= zlen x -> zlen b = N + 1 -> zlen a = N + 1 -> zlen zi = N -> at_ a 0 = 1%R -> exists y : list R, IIR E N b a x zi = Done y /\ answers N b a x zi y.
Proof.
  intros HN LB LA LZ A0. unfold IIR. change (@zlen (tv E) x) with (@zlen R x). destruct (Z.ltb_spec N 1); [lia|]. destruct (Z.ltb_spec (zlen x) N); [lia|]. cbn [orb].
  destruct (run_ok N b a x zi ltac:(lia) LB LA LZ A0 (length x) ltac:(unfold zlen; lia)) as (ys & R1 & L1 & Q1). exists ys. split; [exact R1|]. split; [exact L1|exact Q1].
Qed.
Lemma IIR_unique N (b a x zi y : list R) : 1 <= N <= zlen x -> zlen b = N + 1 -> zlen a = N + 1 -> zlen zi = N -> at_ a 0 = 1%R -> answers N b a x zi y -> IIR E N b a x zi = Done y.
Proof. intros HN LB LA LZ A0 H. destruct (IIR_ok N b a x zi HN LB LA LZ A0) as (y' & R1 & H'). rewrite R1. f_equal. eapply answers_unique; [|exact A0|exact H|exact H']. lia. Qed.

(** ---- the initial values ---- *)
Lemma part_ok (s : R) (f : R -> R -> R) (b a : list R) i : 0 <= i -> i < zlen b -> i < zlen a -> part E s (fun bj aj _ => f bj aj) b a i = Done (s + sum_to (Z.to_nat i) (fun j => f (at_ b (j + 1)) (at_ a (j + 1))))%R.
Proof.
  intros I LB LA. unfold part. set (g := fun j => f (at_ b (j + 1)) (at_ a (j + 1))). replace s with (s + sum_to (Z.to_nat 0) g)%R at 1 by (cbn; ring). apply (for_states _ (fun j => (s + sum_to (Z.to_nat j) g)%R)); [exact I|].
  intros j J. rewrite zget_at by lia. cbn [obnd]. rewrite zget_at by lia. cbn [obnd]. f_equal. replace (Z.to_nat (j + 1)) with (S (Z.to_nat j)) by lia. cbn [sum_to]. rewrite Z2Nat.id by lia. unfold g at 3. cbn [t_add E exact_arith]. match goal with |- @eq _ ?l ?r => change (@eq R l r) end. ring.
Qed.
Definition z0_of (N : Z) (b a : list R) : R := (sum_to (Z.to_nat N) (fun j => at_ b (j + 1) - at_ a (j + 1) * at_ b 0) / (1 + sum_to (Z.to_nat N) (fun j => at_ a (j + 1))))%R.
Definition zi_fun (N : Z) (b a : list R) (i : Z) : R :=
  ((1 + sum_to (Z.to_nat i) (fun j => at_ a (j + 1))) * z0_of N b a - sum_to (Z.to_nat i) (fun j => at_ b (j + 1) - at_ a (j + 1) * at_ b 0))%R.
Lemma zi_ok N (b a : list R) : 1 <= N -> zlen b = N + 1 -> zlen a = N + 1 -> zi_list E N b a = Done (tab N (zi_fun N b a)).
Proof.
  intros HN LB LA. unfold zi_list. rewrite zget_at by lia. cbn [obnd]. rewrite (part_ok _ (fun bj aj => t_sub E bj (t_mul E aj (at_ b 0)))) by lia. cbn [obnd].
  rewrite (part_ok _ (fun _ aj => aj)) by lia. cbn [obnd]. destruct (Z.ltb_spec N 1); [lia|].
  set (st := fun i => tab (i + 1) (zi_fun N b a)).
  match goal with |- for_each _ _ [?z] = _ => assert (S0 : [z] = st 0) end.
  { unfold st. change (0 + 1) with 1. unfold tab. change (zr 1) with [0]. cbn [map]. f_equal. unfold zi_fun. cbn [Z.to_nat sum_to]. unfold tz. cbn [t_div t_of_Z E exact_arith]. match goal with |- @eq _ ?l ?r => change (@eq R l r) end. unfold z0_of.
    rewrite Rplus_0_r, Rmult_1_l, Rminus_0_r, Rplus_0_l. reflexivity. }
  rewrite S0, (for_states _ st); [unfold st; do 2 f_equal; lia|lia|]. intros i I. rewrite (part_ok _ (fun _ aj => aj)) by lia. cbn [obnd]. rewrite (part_ok _ (fun bj aj => t_sub E bj (t_mul E aj (at_ b 0)))) by lia. cbn [obnd]. f_equal.
  unfold st. rewrite <- (tab_app1 (i + 1)) by lia. f_equal. f_equal. unfold zi_fun. unfold tz. cbn [t_div t_of_Z t_sub t_mul E exact_arith]. match goal with |- @eq _ ?l ?r => change (@eq R l r) end. rewrite Rplus_0_l. unfold z0_of. rewrite Rplus_0_l. reflexivity.
Qed.
Lemma total_sum (l : list R) : total l = sum_to (length l) (at_ l).
Proof.
  induction l as [|c l IH]; [reflexivity|]. cbn [total fold_right length]. rewrite sum_first. fold (total l). rewrite IH. f_equal. apply sum_ext. intros j J. unfold at_. replace (Z.to_nat (j + 1)) with (S (Z.to_nat j)) by lia. reflexivity.
Qed.
Lemma steady N b a (c : R) n : 1 <= N <= n -> zlen b = N + 1 -> zlen a = N + 1 -> at_ a 0 = 1%R -> total a <> 0%R ->
  answers N b a (repeat c (Z.to_nat n)) (map (fun z => (z * c)%R) (tab N (zi_fun N b a))) (repeat (total b / total a * c)%R (Z.to_nat n)).
Proof.
  intros HN LB LA A0 NZ. split; [unfold zlen; rewrite !repeat_length; reflexivity|]. unfold zlen at 1. rewrite repeat_length. intros i I.
  assert (AT : forall (v : R) k, 0 <= k < n -> at_ (repeat v (Z.to_nat n)) k = v). { intros v k K. rewrite tab_repeat. unfold at_. apply nth_error_nth. rewrite tab_nth by lia. reflexivity. }
  assert (TT : forall l, zlen l = N + 1 -> total l = (at_ l 0 + sum_to (Z.to_nat N) (fun j => at_ l (j + 1)))%R) by (intros l L; rewrite total_sum; replace (length l) with (S (Z.to_nat N)) by (unfold zlen in L; lia); apply sum_first).
  set (G := (total b / total a)%R).
  assert (CV : forall l v, conv l (repeat v (Z.to_nat n)) i (Z.min i N) = ((at_ l 0 + sum_to (Z.to_nat (Z.min i N)) (fun j => at_ l (j + 1))) * v)%R).
  { intros l v. rewrite conv_first by lia. rewrite AT by lia. rewrite (sum_ext _ _ (fun j => (v * at_ l (j + 1) + 0 * 0)%R)) by (intros j J; rewrite AT by lia; ring). rewrite (sum_lin _ (fun j => at_ l (j + 1)) (fun _ => 0%R)). ring. }
  rewrite !CV, A0. assert (Ta := TT a LA). rewrite A0 in Ta. assert (Tb := TT b LB).
  assert (Z0 : z0_of N b a = (G - at_ b 0)%R).
  { unfold z0_of. rewrite <- Ta. rewrite (sum_ext _ _ (fun j => (1 * at_ b (j + 1) + (- at_ b 0) * at_ a (j + 1))%R)) by (intros; ring). rewrite sum_lin. unfold G. rewrite Tb.
    replace (sum_to (Z.to_nat N) (fun j => at_ a (j + 1))) with (total a - 1)%R by lra. field. exact NZ. }
  destruct (Z.ltb_spec i N).
  - rewrite Z.min_l by lia. rewrite tab_map. assert (ZV : at_ (tab N (fun k => (zi_fun N b a k * c)%R)) i = (zi_fun N b a i * c)%R) by (unfold at_; apply nth_error_nth; rewrite tab_nth by lia; rewrite Z2Nat.id by lia; reflexivity). rewrite ZV.
    unfold zi_fun. rewrite Z0. rewrite (sum_ext _ (fun j => (at_ b (j + 1) - at_ a (j + 1) * at_ b 0)%R) (fun j => (1 * at_ b (j + 1) + (- at_ b 0) * at_ a (j + 1))%R)) by (intros; ring). rewrite sum_lin. ring.
  - rewrite Z.min_r by lia. rewrite <- Ta, <- Tb. unfold G. field. exact NZ.
Qed.
End Run.

Theorem C89_difference_equation : forall csqrt N (b a x zi : list R), 1 <= N <= zlen x -> zlen b = N + 1 -> zlen a = N + 1 -> zlen zi = N -> at_ a 0 = 1%R ->
  exists y : list R, IIR (exact_arith csqrt) N b a x zi = Done y /\ answers N b a x zi y /\ forall y', answers N b a x zi y' -> y' = y.
Proof.
  intros csqrt N b a x zi HN LB LA LZ A0. destruct (IIR_ok csqrt N b a x zi HN LB LA LZ A0) as (y & R1 & H). exists y. split; [exact R1|]. split; [exact H|]. intros y' H'. eapply answers_unique; [|exact A0|exact H|exact H']. lia.
Qed.
Print Assumptions C89_difference_equation.
Theorem C89_steady_state : forall csqrt N (b a : list R), 1 <= N -> zlen b = N + 1 -> zlen a = N + 1 -> at_ a 0 = 1%R -> total a <> 0%R ->
  exists zi : list R, zi_list (exact_arith csqrt) N b a = Done zi /\ zlen zi = N /\
    forall (c : R) n, N <= n -> IIR (exact_arith csqrt) N b a (repeat c (Z.to_nat n)) (map (fun z => (z * c)%R) zi) = Done (repeat (total b / total a * c)%R (Z.to_nat n)).
Proof.
  intros csqrt N b a HN LB LA A0 NZ. exists (tab N (zi_fun N b a)). split; [apply zi_ok; assumption|]. split; [apply tab_zlen; lia|]. intros c n H.
  apply IIR_unique; try assumption; [unfold zlen; rewrite repeat_length; lia|unfold zlen; rewrite map_length, tab_len; lia|]. apply steady; try assumption. lia.
Qed.
Print Assumptions C89_steady_state.
Theorem C89_order_zero_undefined : forall A b a x zi, IIR A 0 b a x zi = Undefined.
Proof. reflexivity. Qed.
Print Assumptions C89_order_zero_undefined.
(** The first-order lowpass filter b = (1/4, 1/4), a = (1, -1/2). *)
Example ex_C89 : zlen [1 / 4; 1 / 4]%R = 2 /\ total [1; - (1 / 2)]%R <> 0%R /\ (total [1 / 4; 1 / 4] / total [1; - (1 / 2)] = 1)%R.
Proof. cbn. split; [reflexivity|]. split; [lra|field]. Qed.

(** ---- C90 ---- *)
Lemma total_response (l : list R) : RtoC (total l) = response l (RtoC 1).
Proof. induction l as [|c l IH]; [reflexivity|]. cbn [total fold_right response]. fold (total l). rewrite RtoC_plus, IH. f_equal. apply Ceq; destruct (response l (RtoC 1)); cbn; ring. Qed.
Lemma rev_repeat {X} (x : X) n : rev (repeat x n) = repeat x n.
Proof. induction n; [reflexivity|]. cbn [repeat rev]. rewrite IHn. clear. induction n; [reflexivity|]. cbn [repeat app]. rewrite IHn. reflexivity. Qed.
Lemma passes_constant csqrt nw N (b a : list R) (c : R) : 1 <= nw -> 1 <= N -> zlen b = N + 1 -> zlen a = N + 1 -> at_ a 0 = 1%R -> total a <> 0%R ->
  let G := (total b / total a)%R in filter_passes (exact_arith csqrt) nw N b a (repeat c (Z.to_nat (nw + 6 * (N + 1)))) = Done (repeat (G * (G * c))%R (Z.to_nat nw)).
Proof.
  intros HW HN LB LA A0 NZ G. unfold filter_passes. destruct (C89_steady_state csqrt N b a HN LB LA A0 NZ) as (zi & Z1 & Z2 & Z3). rewrite Z1. cbn [obnd]. set (n := nw + 6 * (N + 1)).
  assert (GT : forall (v : R) k, 0 <= k < n -> zget (repeat v (Z.to_nat n)) k = Done v) by (intros v k K; rewrite tab_repeat; apply tab_get; exact K).
  rewrite GT by (unfold n; lia). cbn [obnd].
  change (map (fun z => t_mul (exact_arith csqrt) z c) zi) with (map (fun z : R => (z * c)%R) zi). rewrite Z3 by (unfold n; lia). cbn [obnd]. rewrite rev_repeat. fold G. rewrite GT by (unfold n; lia). cbn [obnd].
  change (map (fun z => t_mul (exact_arith csqrt) z (G * c)%R) zi) with (map (fun z : R => (z * (G * c))%R) zi). rewrite Z3 by (unfold n; lia). cbn [obnd]. fold G.
  change (@nil (tv (exact_arith csqrt))) with (tab 0 (fun _ => (G * (G * c))%R)). rewrite (for_states _ (fun i => tab i (fun _ => (G * (G * c))%R))); [rewrite tab_repeat; reflexivity|lia|].
  intros i I. rewrite GT by (unfold n; lia). cbn [obnd]. f_equal. apply (tab_app1 i (fun _ => (G * (G * c))%R)). lia.
Qed.
(** A padded trace that is constant comes out unchanged (lowpass, bandstop) or as zeros
    (highpass, bandpass).  Missing: no padding of the program gives such a trace. *)
Theorem C90_constant_partial : forall csqrt, is_sqrt csqrt -> forall type N fs cf1 cf2, 1 <= N -> corners_ok type fs cf1 cf2 ->
  let n := if Req_EM_T cf2 0 then N else 2 * N in
  exists b a, makeFilter (exact_arith csqrt) type N fs cf1 cf2 = Done (b, a) /\
    forall nw (c : R), 1 <= nw -> filter_passes (exact_arith csqrt) nw n b a (repeat c (Z.to_nat (nw + 6 * (n + 1)))) = Done (repeat (if passes_dc type then c else 0%R) (Z.to_nat nw)).
Proof.
  intros csqrt Hs type N fs cf1 cf2 HN HC n. destruct (C91_response csqrt Hs type N fs cf1 cf2 HN HC) as (b & a & E & (LB & LA & A0 & S) & R1). fold n in LB, LA. exists b, a. split; [exact E|]. intros nw c HW.
  assert (n1 : 1 <= n) by (unfold n; destruct (Req_EM_T cf2 0); lia).
  assert (NZ : total a <> 0%R). { intros X. apply (S (RtoC 1)); [rewrite Cmod_1; lra|]. rewrite <- total_response, X. reflexivity. }
  rewrite passes_constant; [|exact HW|exact n1|exact LB|exact LA|unfold at_; cbn [Z.to_nat]; apply nth_error_nth; exact A0|exact NZ]. do 2 f_equal.
  destruct (C91_ends csqrt Hs type N fs cf1 cf2 HN HC) as (b' & a' & E' & D & _). rewrite E in E'. injection E' as <- <-.
  unfold gain in D. rewrite <- !total_response, <- RtoC_div in D by exact NZ. rewrite Cmod_R in D. set (G := (total b / total a)%R) in *. destruct (passes_dc type).
  - assert (G2 : (G * G = 1)%R) by (assert (Q := Rsqr_abs G); unfold Rsqr in Q; rewrite Q, D; ring). rewrite <- Rmult_assoc, G2. ring.
  - assert (G = 0)%R as -> by (destruct (Req_dec G 0) as [Z0|Z0]; [exact Z0|apply Rabs_no_R0 in Z0; contradiction]). ring.
Qed.
Print Assumptions C90_constant_partial.
(** With the padding the program has (replicate, the last three padded values are 0) a
    constant trace loses part of its value although the filter (ex_C89) passes constants:
    five samples 1 come out below 1, the last below 0.96.  Every number of this
    computation is exact. *)
Theorem C90_replicate_refuted : forall ftan fpow fpi csqrt cexp, let A := float_arith ftan fpow fpi csqrt cexp in let q := fdiv (f_of_Z 1) (f_of_Z 4) in
  exists out : list F, filterTime A PReplicate (fun l => l) 1 [q; q] [f_of_Z 1; fdiv (f_of_Z (-1)) (f_of_Z 2)] (repeat (f_of_Z 1) 5) = Done out /\
    length out = 5%nat /\ forallb (fun y => fltb y (f_of_Z 1)) out = true /\ fltb (fmul (f_of_Z 100) (nth 4 out f0)) (f_of_Z 96) = true.
Proof.
  intros ftan fpow fpi csqrt cexp A q. set (run := filterTime A PReplicate _ _ _ _ _).
  assert (H : (match run with Done out => Nat.eqb (length out) 5 && (forallb (fun y : F => fltb y (f_of_Z 1)) out && fltb (fmul (f_of_Z 100) (nth 4 out f0)) (f_of_Z 96)) | _ => false end) = true) by (vm_compute; reflexivity).
  destruct run as [out| |]; [|discriminate H|discriminate H]. exists out. apply andb_prop in H. destruct H as (H1 & H). apply andb_prop in H. destruct H as (H2 & H3). split; [reflexivity|]. split; [apply Nat.eqb_eq, H1|]. split; assumption.
Qed.
Print Assumptions C90_replicate_refuted.
(** Mirrored and cyclic padding read outside the window, so there is no output at all. *)
Theorem C90_symmetric_cyclic_refuted : forall A cast numTail b a w, 0 <= numTail -> w <> [] -> 2 * (3 * (numTail + 1) + zlen w) < two64 ->
  filterTime A PSymmetric cast numTail b a w = Undefined /\ filterTime A PCyclic cast numTail b a w = Undefined.
Proof.
  intros A cast numTail b a w T NE B. unfold filterTime. rewrite C80_symmetric_refuted, C80_cyclic_refuted by assumption. split; reflexivity.
Qed.
Print Assumptions C90_symmetric_cyclic_refuted.
Example ex_C90 : 1 <= 1 /\ corners_ok Lowpass 100 10 0.
Proof. split; [lia|]. unfold corners_ok. cbn. lra. Qed.
