(** C70, C76, C80, C81: gain functions and temporal filters. *)
From Coq Require Import Reals Lra Lia Permutation Sorted.
From Flocq Require Import Core IEEE754.BinarySingleNaN.
From Verif Require Import Base DecompProofs DataIOModel DataIOProofs FloatModel FloatProofs SortSpec SortProofs SignalModel SignalSpec SignalProofs SignalProperties.
Import ListNotations.
Open Scope Z_scope.

(** The recursion of taper never goes deeper than two levels. *)
Lemma leading_zeros_rest : forall s x t, skipn (leading_zeros s) s = x :: t -> feqb x f0 = false.
Proof.
  induction s as [|y s IH]; intros x t H; [discriminate H|]. cbn [leading_zeros] in H. destruct (feqb y f0) eqn:E; [exact (IH _ _ H)|]. cbn [skipn] in H. congruence.
Qed.
Theorem C68_taper_depth : forall k dbg fn s l r, taper_n (S (S k)) dbg fn s l r = taper dbg fn s l r.
Proof.
  intros k dbg fn s l r. unfold taper. destruct s as [|x s]; [reflexivity|]. set (t := skipn (leading_zeros (x :: s)) (x :: s)).
  assert (G : forall f l r, taper_n (S f) dbg fn t l r = taper_n 1 dbg fn t l r).
  { intros f l' r'. pose proof (leading_zeros_rest (x :: s)) as L. fold t in L. clearbody t. destruct t as [|y t']; [reflexivity|]. specialize (L y t' eq_refl). cbn [taper_n]. rewrite L. reflexivity. }
  change (taper_n (S (S k)) dbg fn (x :: s) l r) with (asserted dbg ((l <? zlen (x :: s)) && (r <? zlen (x :: s))) (if feqb x f0 then match dbg, t with true, [] => Undefined | _, _ => obnd (taper_n (S k) dbg fn t (Z.min l (zlen t)) (Z.min r (zlen t))) (fun t' => Done (firstn (leading_zeros (x :: s)) (x :: s) ++ t')) end else taper_loops fn (x :: s) l r)).
  rewrite G. reflexivity.
Qed.
Print Assumptions C68_taper_depth.

(** ---- C70 ---- *)
Lemma fold_sq : forall w v a m, Forall2 is_int w v -> is_int a m -> 0 <= m -> m + sum_sq v <= two24 -> is_int (fold_left (fun a x => fadd a (fmul x x)) w a) (m + sum_sq v).
Proof.
  induction w as [|x w IH]; intros v a m H A P B; inversion H as [|? y ? v' HX HS]; subst.
  - cbn [fold_left]. unfold sum_sq. cbn [map]. change (zsum []) with 0. rewrite Z.add_0_r. exact A.
  - change (sum_sq (y :: v')) with (y * y + sum_sq v') in *. assert (S0 : 0 <= sum_sq v').
    { clear. induction v' as [|z v IH]; [unfold sum_sq; cbn; lia|]. change (sum_sq (z :: v)) with (z * z + sum_sq v). pose proof (Z.square_nonneg z). lia. }
    pose proof (Z.square_nonneg y). cbn [fold_left]. rewrite Z.add_assoc. apply IH; [exact HS| |lia|lia]. apply add_int; [exact A| |lia]. apply mul_int; [exact HX|exact HX|lia].
Qed.
Lemma fold_sum : forall w v a m, Forall2 is_int w v -> Forall (fun y => 0 <= y) v -> is_int a m -> 0 <= m -> m + zsum v <= two24 -> is_int (fold_left fadd w a) (m + zsum v).
Proof.
  induction w as [|x w IH]; intros v a m H V A P B; inversion H as [|? y ? v' HX HS]; subst.
  - cbn [fold_left]. change (zsum []) with 0. rewrite Z.add_0_r. exact A.
  - change (zsum (y :: v')) with (y + zsum v') in *. inversion V as [|? ? Y0 V']; subst. assert (S0 : 0 <= zsum v').
    { clear - V'. induction V' as [|z v Z0 _ IH]; [cbn; lia|]. change (zsum (z :: v)) with (z + zsum v). lia. }
    cbn [fold_left]. rewrite Z.add_assoc. apply IH; [exact HS|exact V'| |lia|lia]. apply add_int; [exact A|exact HX|lia].
Qed.
Lemma non_zero_int w v : Forall2 is_int w v -> non_zero w = count_nz v.
Proof.
  unfold non_zero, count_nz, zlen. intros H. f_equal. induction H as [|x y w v HX _ IH]; [reflexivity|]. cbn [filter]. rewrite (eqb_int x y HX). destruct (y =? 0); cbn [negb length]; lia.
Qed.
Lemma count_le_sq v : 0 <= count_nz v <= sum_sq v.
Proof.
  unfold count_nz. induction v as [|y v IH]; [unfold sum_sq; cbn; lia|]. change (sum_sq (y :: v)) with (y * y + sum_sq v). cbn [filter]. pose proof (Z.square_nonneg y). destruct (Z.eqb_spec y 0) as [E|E]; cbn [negb length]; [lia|]. assert (1 <= y * y) by (destruct (Z.lt_trichotomy y 0) as [|[|]]; [|lia|]; nia). lia.
Qed.
Lemma count_le_sum v : Forall (fun y => 0 <= y) v -> 0 <= count_nz v <= zsum v.
Proof.
  unfold count_nz. induction 1 as [|y v Y _ IH]; [cbn; lia|]. change (zsum (y :: v)) with (y + zsum v). cbn [filter]. destruct (Z.eqb_spec y 0) as [E|E]; cbn [negb length]; lia.
Qed.
Lemma count_pos v : 0 < zsum (map Z.abs v) -> 1 <= count_nz v.
Proof.
  unfold count_nz. induction v as [|y v IH]; [cbn; lia|]. change (zsum (map Z.abs (y :: v))) with (Z.abs y + zsum (map Z.abs v)). cbn [filter]. destruct (Z.eqb_spec y 0) as [->|E]; cbn [negb length]; lia.
Qed.
Lemma count_pos_sq v : 0 < sum_sq v -> 1 <= count_nz v.
Proof.
  unfold count_nz. induction v as [|y v IH]; [unfold sum_sq; cbn; lia|]. change (sum_sq (y :: v)) with (y * y + sum_sq v). cbn [filter]. destruct (Z.eqb_spec y 0) as [->|E]; cbn [negb length]; lia.
Qed.
(** Dividing integers 1 <= b <= a. *)
Lemma ratio a b m n : is_int a m -> is_int b n -> 1 <= n <= m -> m <= two24 -> ffin (fdiv a b) /\ B2R (fdiv a b) = rnd (IZR m / IZR n) /\ (1 <= rnd (IZR m / IZR n) <= IZR m)%R.
Proof.
  intros (FA & VA) (FB & VB) N M. assert (NP : (1 <= IZR n)%R) by (apply IZR_le; lia). assert (MN : (IZR n <= IZR m)%R) by (apply IZR_le; lia).
  assert (R : (IZR 1 <= IZR m / IZR n <= IZR m)%R).
  { split; (apply Rmult_le_reg_r with (IZR n); [lra|]); unfold Rdiv; rewrite Rmult_assoc, Rinv_l by lra; rewrite Rmult_1_r.
    - lra.
    - rewrite <- (Rmult_1_r (IZR m)) at 1. apply Rmult_le_compat_l; lra. }
  pose proof (rnd_between _ 1 m ltac:(unfold two24; lia) ltac:(lia) R) as RB.
  destruct (div_correct a b FA FB) as (FD & VD).
  - rewrite VB. lra.
  - rewrite VA, VB. rewrite Rabs_pos_eq by lra. apply Rle_lt_trans with (IZR m); [apply RB|]. pose proof (int_small m ltac:(lia)) as S. rewrite Rabs_pos_eq in S by lra. exact S.
  - rewrite VA, VB in VD. auto.
Qed.
(** Dividing by a number of at least 1. *)
Lemma div_ge1 t b : ffin t -> ffin b -> (1 <= B2R b)%R -> ffin (fdiv t b) /\ B2R (fdiv t b) = rnd (B2R t / B2R b).
Proof.
  intros FT FB P. apply div_correct; [exact FT|exact FB|lra|]. 
  apply Rle_lt_trans with (Rabs (B2R t)); [|apply abs_B2R_lt_emax].
  apply abs_round_le_generic; [apply fexp_correct; reflexivity|apply valid_rnd_round_mode|apply generic_format_abs, generic_format_B2R|].
  unfold Rdiv. rewrite Rabs_mult. rewrite <- (Rmult_1_r (Rabs (B2R t))) at 2. apply Rmult_le_compat_l; [apply Rabs_pos|]. rewrite Rabs_inv, Rabs_pos_eq by lra. rewrite <- Rinv_1. apply Rinv_le_contravar; lra.
Qed.
Lemma sign_pos a : ffin a -> (0 < B2R a)%R -> Bsign a = false.
Proof.
  intros FA P. destruct a as [s|s| |s m e He]; try discriminate FA.
  - cbn [B2R] in P. lra.
  - destruct s; [|reflexivity]. cbn [B2R] in P. unfold F2R in P. cbn [cond_Zopp Fnum Fexp] in P. assert (IZR (Z.neg m) < 0)%R by (apply IZR_lt; lia). pose proof (bpow_gt_0 radix2 e) as B. assert (IZR (- Z.pos m) * bpow radix2 e < 0)%R; [|cbn in *; lra]. rewrite <- (Rmult_0_l (bpow radix2 e)). apply Rmult_lt_compat_r; [exact B|exact H].
Qed.
(** Integer samples whose squares add up to at most 2^24, not all zero: the gain is
    target / sqrt(mean square of the non-zero samples), each step correctly rounded. *)
Theorem C70_rms_partial : forall dbg w v target c, Forall2 is_int w v -> 0 < sum_sq v <= two24 -> is_finite target = true ->
  exists gain, rectangular_RMS_gain dbg w target c = Done gain /\ is_finite gain = true /\
    B2R gain = rnd (B2R target / rnd (sqrt (rnd (IZR (sum_sq v) / IZR (count_nz v)))))%R.
Proof.
  intros dbg w v target c H B FT. pose proof (count_le_sq v) as C1. pose proof (count_pos_sq v ltac:(lia)) as C2.
  assert (A : is_int (fold_left (fun a x => fadd a (fmul x x)) w f0) (sum_sq v)) by (apply (fold_sq w v f0 0); [exact H|split; reflexivity|lia|lia]).
  unfold rectangular_RMS_gain. rewrite (eqb_int _ _ A). destruct (Z.eqb_spec (sum_sq v) 0); [lia|]. unfold asserted. rewrite Bool.andb_false_r. rewrite (non_zero_int w v H), Z.max_r by lia.
  destruct (ratio _ _ _ _ A (of_Z_int (count_nz v) ltac:(lia))) as (F1 & V1 & R1); [lia|lia|].
  destruct (sqrt_correct _ F1) as (F2 & V2); [lra|apply sign_pos; [exact F1|lra]|].
  assert (R2 : (1 <= rnd (sqrt (rnd (IZR (sum_sq v) / IZR (count_nz v)))))%R).
  { change 1%R with (IZR 1). rewrite <- (int_rnd 1) at 1 by (unfold two24; lia). apply rnd_le. rewrite <- sqrt_1. apply sqrt_le_1_alt. apply R1. }
  rewrite V1 in V2. destruct (div_ge1 target _ FT F2) as (F3 & V3); [rewrite V2; exact R2|].
  eexists. split; [reflexivity|]. split; [exact F3|]. rewrite V3, V2. reflexivity.
Qed.
Print Assumptions C70_rms_partial.
(** The same for the mean of samples that are not negative. *)
Theorem C70_mean_abs_partial : forall dbg w v target c, Forall2 is_int w v -> Forall (fun y => 0 <= y) v -> 0 < zsum (map Z.abs v) <= two24 -> is_finite target = true ->
  exists gain, mean_abs_gain dbg w target c = Done gain /\ is_finite gain = true /\
    B2R gain = rnd (B2R target / rnd (IZR (zsum (map Z.abs v)) / IZR (count_nz v)))%R.
Proof.
  intros dbg w v target c H V B FT. pose proof (count_le_sum v V) as C1. pose proof (count_pos v ltac:(lia)) as C2.
  assert (EA : map Z.abs v = v) by (clear - V; induction V as [|y v Y _ IH]; [reflexivity|]; cbn [map]; rewrite IH; f_equal; lia). rewrite EA in *.
  assert (A : is_int (fold_left fadd w f0) (zsum v)) by (apply (fold_sum w v f0 0); [exact H|exact V|split; reflexivity|lia|lia]).
  unfold mean_abs_gain. destruct (Z.ltb_spec 0 (zlen w)) as [L|L].
  2:{ exfalso. destruct w; [inversion H; subst; cbn in B; lia|]. unfold zlen in L. cbn [length] in L. lia. }
  rewrite (eqb_int _ _ A). destruct (Z.eqb_spec (zsum v) 0); [lia|]. unfold asserted. rewrite !Bool.andb_false_r. rewrite (non_zero_int w v H), Z.max_r by lia.
  assert (AA : is_int (fabs (fold_left fadd w f0)) (zsum v)).
  { destruct A as (FA & VA). destruct (abs_correct _ FA) as (F' & V'). split; [exact F'|]. rewrite V', VA. apply Rabs_pos_eq, IZR_le. lia. }
  destruct (ratio _ _ _ _ AA (of_Z_int (count_nz v) ltac:(lia))) as (F1 & V1 & R1); [lia|lia|].
  destruct (div_ge1 target _ FT F1) as (F3 & V3); [lra|].
  eexists. split; [reflexivity|]. split; [exact F3|]. rewrite V3, V1. reflexivity.
Qed.
Print Assumptions C70_mean_abs_partial.
(** With samples of both signs it is the absolute value of the mean: for x, -x the
    mean absolute value is |x|, but the gain is that of amplitude zero. *)
Theorem C70_mean_abs_refuted : forall x, 0 < x <= two24 -> exists w, Forall2 is_int w [x; - x] /\
  mean_abs_gain true w (f_of_Z 1) 0 = Abort /\ exists gain, mean_abs_gain false w (f_of_Z 1) 0 = Done gain /\ is_finite gain = false.
Proof.
  intros x X. exists (ints [x; - x]). assert (I1 := of_Z_int x ltac:(lia)). assert (I2 := of_Z_int (- x) ltac:(lia)). split; [constructor; [exact I1|constructor; [exact I2|constructor]]|].
  assert (A : is_int (fold_left fadd (ints [x; - x]) f0) (0 + x + - x)).
  { unfold ints. cbn [map fold_left]. apply add_int; [|exact I2|unfold two24; lia]. apply add_int; [split; reflexivity|exact I1|lia]. }
  replace (0 + x + - x) with 0 in A by lia. unfold mean_abs_gain. set (w := ints [x; - x]) in *. change (zlen w) with 2. cbn [Z.ltb Z.compare]. rewrite (eqb_int _ _ A). split; [reflexivity|]. eexists. split; [reflexivity|].
  assert (NZ : non_zero w = 2). { unfold w, non_zero, ints, zlen. cbn [map filter]. rewrite (eqb_int _ _ I1), (eqb_int _ _ I2). destruct (Z.eqb_spec x 0), (Z.eqb_spec (- x) 0); try lia. reflexivity. }
  rewrite NZ. change (Z.max 1 2) with 2. destruct A as (FA & VA). destruct (abs_correct _ FA) as (FB & VB). rewrite VA in VB. destruct (fold_left fadd w f0) as [s|s| |s m e He]; try discriminate FA.
  - destruct s; reflexivity.
  - exfalso. cbn [B2R] in VA. unfold F2R in VA. cbn [Fnum Fexp] in VA. pose proof (bpow_gt_0 radix2 e) as BP. apply Rmult_integral in VA. destruct VA as [VA|VA]; [|lra]. apply eq_IZR in VA. destruct s; discriminate VA.
Qed.
Print Assumptions C70_mean_abs_refuted.
(** Windows of an odd number of samples: the amplitude is a median. *)
Theorem C70_median_odd_partial : forall srt (w : list F) target c, std_sort srt -> Forall (fun x => is_nan x = false) w -> Z.odd (zlen w) = true ->
  exists a, is_median a w /\ median_gain srt false w target c = Done (fdiv target a).
Proof.
  intros srt w target c SS NN ODD. unfold median_gain.
  assert (EX : existsb f_nan w = false). { clear - NN. induction NN as [|x w X _ IH]; [reflexivity|]. cbn [existsb]. unfold f_nan at 1. rewrite X. exact IH. }
  rewrite EX. assert (SW : strict_weak (fun x => In x w) fltb).
  { destruct fltb_weak as (W1 & W2 & W3). rewrite Forall_forall in NN. split; [intros x X; apply W1, NN, X|]. split; intros x y z X Y Z0; [apply (W2 x y z)|apply (W3 x y z)]; apply NN; assumption. }
  destruct (SS F fltb w SW) as (PM & SO). set (v := srt F fltb w) in *. assert (LV : length v = length w) by (symmetry; apply Permutation_length, PM).
  assert (PZ : 0 <= zlen w) by (unfold zlen; lia). apply Zodd_bool_iff in ODD. apply Zodd_ex in ODD. destruct ODD as (k & K).
  assert (M1 : zlen w mod 2 = 1) by (rewrite K; symmetry; apply (Z.mod_unique _ _ k 1); lia). assert (M2 : zlen w / 2 = k) by (rewrite K; symmetry; apply (Z.div_unique _ _ k 1); lia).
  rewrite M1, M2. cbn [Z.eqb]. unfold zget. destruct (Z.ltb_spec k 0) as [|K0]; [lia|]. destruct (nth_error v (Z.to_nat k)) as [a|] eqn:EA.
  2:{ exfalso. apply nth_error_None in EA. unfold zlen in K. lia. }
  cbn [obnd asserted andb]. exists a. split; [|reflexivity].
  destruct (nth_error_split v _ EA) as (v1 & v2 & EV & L1). assert (INA : In a w) by (apply Permutation_in with v; [symmetry; exact PM|rewrite EV; apply in_elt]). split; [exact INA|].
  assert (NV : Forall fnum v) by (apply Forall_forall; intros x X; rewrite Forall_forall in NN; apply NN; apply Permutation_in with v; [symmetry; exact PM|exact X]).
  assert (PF : forall f, length (filter f w) = length (filter f v)).
  { intros f. clear - PM. induction PM as [|x l l' _ IH|x y l|l l' l'' _ IH1 _ IH2]; [reflexivity| | |congruence]; cbn [filter]; [destruct (f x); cbn [length]; lia|destruct (f x), (f y); reflexivity]. }
  assert (FL : forall f (l : list F), (length (filter f l) <= length l)%nat) by (clear; intros f; induction l as [|x l IH]; [cbn; lia|]; cbn [filter]; destruct (f x); cbn [length]; lia).
  assert (F0 : forall f (l : list F), (forall x, In x l -> f x = false) -> length (filter f l) = 0%nat).
  { clear. intros f. induction l as [|x l IH]; intros H; [reflexivity|]. cbn [filter]. rewrite (H x (or_introl eq_refl)). apply IH. intros y Y. apply H. right. exact Y. }
  assert (LW : (length w = 2 * length v1 + 1)%nat) by (unfold zlen in K; lia). assert (L2 : length v2 = length v1) by (rewrite EV, app_length in LV; cbn [length] in LV; lia).
  rewrite EV in SO. unfold sorted in SO.
  rewrite !PF, EV, !filter_app, !app_length. cbn [filter]. assert (AA : fltb a a = false) by (apply (proj1 fltb_weak); rewrite Forall_forall in NN; apply NN, INA). rewrite AA.
  assert (GE : forall x, In x v2 -> fltb x a = false).
  { assert (SO2 : StronglySorted (fun a b : F => fltb b a = false) (a :: v2)) by (clear - SO; induction v1 as [|y v1 IH]; [exact SO|]; apply IH; cbn [app] in SO; inversion SO; assumption). inversion SO2 as [|? ? _ FA]; subst. rewrite Forall_forall in FA. exact FA. }
  assert (LE : forall x, In x v1 -> fltb a x = false).
  { clear - SO. induction v1 as [|y v1 IH]; intros x X; [destruct X|]. cbn [app] in SO. inversion SO as [|? ? S1 FA]; subst. destruct X as [<-|X]; [|exact (IH S1 x X)]. rewrite Forall_forall in FA. apply FA, in_elt. }
  rewrite (F0 (fun x => fltb x a) v2 GE), (F0 (fun x => fltb a x) v1 LE). pose proof (FL (fun x => fltb x a) v1). pose proof (FL (fun x => fltb a x) v2). lia.
Qed.
Print Assumptions C70_median_odd_partial.

(** Windows of two samples have no element of index 2. *)
Theorem C70_median_two_refuted : forall srt dbg x y target c, std_sort srt -> is_nan x = false -> is_nan y = false -> median_gain srt dbg [x; y] target c = Undefined.
Proof.
  intros srt dbg x y target c SS X Y. unfold median_gain. cbn [existsb]. unfold f_nan. rewrite X, Y. cbn [orb].
  assert (SW : strict_weak (fun z => In z [x; y]) fltb).
  { destruct fltb_weak as (W1 & W2 & W3). assert (NN : forall z, In z [x; y] -> fnum z) by (intros z [<-|[<-|[]]]; assumption). split; [intros a A; apply W1, NN, A|]. split; intros a b d A B0 D; [apply (W2 a b d)|apply (W3 a b d)]; apply NN; assumption. }
  destruct (SS F fltb [x; y] SW) as (PM & _). apply Permutation_length in PM. set (v := srt F fltb [x; y]) in *. destruct v as [|a [|b [|d v]]]; try discriminate PM. vm_compute. reflexivity.
Qed.
Print Assumptions C70_median_two_refuted.
(** Longer even windows use the two values above the middle: for 1, 2, 3, 4 the
    amplitude is 3.5, not 2.5, and three of the four samples are smaller. *)
Theorem C70_median_even_refuted : forall srt, std_sort srt -> exists w a, length w = 4%nat /\ Forall (fun x => is_nan x = false) w /\
  median_gain srt false w (f_of_Z 7) 0 = Done (fdiv (f_of_Z 7) a) /\ length (filter (fun x => fltb x a) w) = 3%nat /\ length (filter (fun x => fltb a x) w) = 1%nat.
Proof.
  intros srt SS. exists (ints [1; 2; 3; 4]), (fdiv (fadd (f_of_Z 3) (f_of_Z 4)) (f_of_Z 2)). split; [reflexivity|]. split; [repeat constructor|].
  assert (NN : forall z, In z (ints [1; 2; 3; 4]) -> fnum z) by (intros z Z0; repeat destruct Z0 as [<-|Z0]; try reflexivity; destruct Z0).
  assert (SW : strict_weak (fun z => In z (ints [1; 2; 3; 4])) fltb).
  { destruct fltb_weak as (W1 & W2 & W3). split; [intros a A; apply W1, NN, A|]. split; intros a b d A B0 D; [apply (W2 a b d)|apply (W3 a b d)]; apply NN; assumption. }
  destruct (SS F fltb _ SW) as (PM & SO). unfold median_gain. set (v := srt F fltb (ints [1; 2; 3; 4])) in *.
  assert (E : v = ints [1; 2; 3; 4]).
  { apply (sorted_unique (fun z => In z (ints [1; 2; 3; 4])) fltb).
    - destruct SW as (W1 & W2 & _). split; [exact W1|]. split; [exact W2|]. intros a b A B0. repeat destruct A as [<-|A]; try destruct A; repeat destruct B0 as [<-|B0]; try destruct B0; intros H1 H2; try reflexivity; exfalso; revert H1 H2; vm_compute; congruence.
    - intros z Z0. apply Permutation_in with v; [symmetry; exact PM|exact Z0].
    - symmetry. exact PM.
    - exact SO.
    - unfold sorted. repeat constructor. }
  rewrite E. split; [|split; vm_compute; reflexivity]. assert (EX : existsb f_nan (ints [1; 2; 3; 4]) = false) by (vm_compute; reflexivity). rewrite EX. change (zlen (ints [1; 2; 3; 4])) with 4. change (4 mod 2 =? 0) with true. change (4 / 2) with 2. change (zget (ints [1; 2; 3; 4]) 2) with (Done (f_of_Z 3)). change (zget (ints [1; 2; 3; 4]) (2 + 1)) with (Done (f_of_Z 4)). reflexivity.
Qed.
Print Assumptions C70_median_even_refuted.
(** Triangular weights: between 0 and 1, 1 at the centre, 0 at the far end. *)
Theorem C70_triangular_weights : forall n c j, 0 <= c < n -> 2 <= n <= two24 -> 0 <= j < n ->
  is_finite (tri_scaling n c j) = true /\ (0 <= B2R (tri_scaling n c j) <= 1)%R /\ (j = c -> B2R (tri_scaling n c j) = 1%R) /\
  (Z.abs (j - c) = Z.max c (n - 1 - c) -> B2R (tri_scaling n c j) = 0%R) /\
  (forall i, 0 <= i < n -> Z.abs (j - c) <= Z.abs (i - c) -> (B2R (tri_scaling n c i) <= B2R (tri_scaling n c j))%R).
Proof.
  intros n c j C N. assert (G : forall j, 0 <= j < n -> let q := (IZR (Z.abs (j - c)) / IZR (Z.max c (n - 1 - c)))%R in (0 <= q <= 1)%R /\ (0 <= rnd q <= 1)%R /\ ffin (tri_scaling n c j) /\ B2R (tri_scaling n c j) = rnd (1 - rnd q) /\ (0 <= rnd (1 - rnd q) <= 1)%R).
  { clear j. intros j J. cbv zeta. set (h := Z.max c (n - 1 - c)). set (d := Z.abs (j - c)). assert (H : 1 <= h <= two24) by (unfold h; lia). assert (D : 0 <= d <= h) by (unfold d, h; lia).
    assert (HP : (1 <= IZR h)%R) by (apply IZR_le; lia). assert (D0 : (0 <= IZR d)%R) by (apply IZR_le; lia). assert (D1 : (IZR d <= IZR h)%R) by (apply IZR_le; lia).
    assert (Q : (0 <= IZR d / IZR h <= 1)%R). { split; (apply Rmult_le_reg_r with (IZR h); [lra|]); unfold Rdiv; rewrite Rmult_assoc, Rinv_l by lra; lra. }
    pose proof (rnd_between _ 0 1 ltac:(unfold two24; lia) ltac:(unfold two24; lia) Q) as RB. split; [exact Q|]. split; [exact RB|].
    unfold tri_scaling. fold h. assert (ED : (if c <? j then j - c else c - j) = d) by (unfold d; destruct (Z.ltb_spec c j); lia). rewrite ED. destruct (of_Z_int d ltac:(lia)) as (FD & VD). destruct (of_Z_int h ltac:(lia)) as (FH & VH).
    destruct (div_correct _ _ FD FH) as (FQ & VQ); [rewrite VH; lra|rewrite VD, VH; apply small_bound; exact RB|]. rewrite VD, VH in VQ. exact (one_minus _ _ FQ VQ RB). }
  intros J. destruct (G j J) as (Q & RQ & FV & VV & BV). split; [exact FV|]. rewrite VV. split; [exact BV|]. split; [|split].
  - intros ->. replace (c - c) with 0 by lia. cbn [Z.abs]. unfold Rdiv. rewrite Rmult_0_l. change 0%R with (IZR 0). rewrite (int_rnd 0) by (unfold two24; lia). replace (1 - IZR 0)%R with (IZR 1) by lra. apply (int_rnd 1). unfold two24; lia.
  - intros E. rewrite E. assert (HP : (1 <= IZR (Z.max c (n - 1 - c)))%R) by (apply IZR_le; lia). replace (IZR (Z.max c (n - 1 - c)) / IZR (Z.max c (n - 1 - c)))%R with (IZR 1) by (field; lra). rewrite (int_rnd 1) by (unfold two24; lia). replace (1 - IZR 1)%R with (IZR 0) by lra. apply (int_rnd 0). unfold two24; lia.
  - intros i I DI. destruct (G i I) as (_ & _ & _ & VI & _). rewrite VI. apply rnd_le. apply Rplus_le_compat_l, Ropp_le_contravar, rnd_le. apply Rmult_le_compat_r; [apply Rlt_le, Rinv_0_lt_compat, IZR_lt; lia|apply IZR_le; exact DI].
Qed.
Print Assumptions C70_triangular_weights.
(** A window of one sample has weight 0/0: the gain is not a number. *)
Theorem C70_triangular_one_refuted : forall x target, exists gain, triangular_RMS_gain false [x] target 0 = Done gain /\ is_nan gain = true.
Proof.
  intros x target. eexists. split; [reflexivity|]. 
  assert (T : tri_scaling 1 0 0 = B754_nan) by (vm_compute; reflexivity).
  change (zlen [x]) with 1. change (combine (zr 1) [x]) with [(0, x)]. cbn [fold_left fst snd]. rewrite T.
  assert (M : forall y, fmul y B754_nan = B754_nan) by (intros [| | |]; reflexivity). rewrite M. change (fmul B754_nan B754_nan) with (B754_nan : F).
  assert (A : fadd f0 B754_nan = B754_nan) by reflexivity. rewrite A. assert (D : forall y, fdiv B754_nan y = B754_nan) by (intros [| | |]; reflexivity). rewrite D. destruct target; reflexivity.
Qed.
Print Assumptions C70_triangular_one_refuted.
Example C70_demo : Forall2 is_int (ints [3; 0; -4; 3]) [3; 0; -4; 3] /\ sum_sq [3; 0; -4; 3] = 34 /\ count_nz [3; 0; -4; 3] = 3 /\
  is_median (f_of_Z 3) (ints [9; 1; 3]) /\ std_sort isort /\ map (fun j => B2SF (tri_scaling 5 2 j)) [0; 2; 4] = [B2SF f0; B2SF (f_of_Z 1); B2SF f0].
Proof.
  split; [repeat (constructor; [apply of_Z_int; unfold two24; lia|]); constructor|]. split; [reflexivity|]. split; [reflexivity|]. split; [|split; [exact isort_std|vm_compute; reflexivity]].
  split; [right; right; left; reflexivity|]. split; vm_compute; repeat constructor.
Qed.

(** ---- C76 ---- *)
Lemma take_mid {A} (a b : list A) n : length a = n -> firstn n (a ++ b) = a.
Proof. intros <-. rewrite firstn_app, firstn_all, Nat.sub_diag. apply app_nil_r. Qed.
Lemma drop_mid {A} (a b : list A) n : length a = n -> skipn n (a ++ b) = b.
Proof. intros <-. rewrite skipn_app, skipn_all, Nat.sub_diag. reflexivity. Qed.
(** One trace: samples start .. start + m - 1 replaced by their filtered values. *)
Definition windowed (flt : list F -> list F) (start m : Z) (t : list F) : list F :=
  firstn (Z.to_nat start) t ++ flt (firstn (Z.to_nat m) (skipn (Z.to_nat start) t)) ++ skipn (Z.to_nat (start + m)) t.
Lemma tf_step flt ns m start base : 0 <= start -> 0 <= m -> start + m <= ns ->
  (forall w, zlen w = m -> zlen (flt w) = m) ->
  forall a t b, zlen a = base -> zlen t = ns ->
  let ix := map (fun j => (base + start) + j) (zr m) in
  obnd (tf_read (a ++ t ++ b) ix) (fun w => obnd (Done (flt w)) (fun w' => tf_write (a ++ t ++ b) (combine ix w'))) = Done (a ++ windowed flt start m t ++ b).
Proof.
  intros S0 M0 E K a t b LA LT ix. pose proof (zlen_nonneg a). set (t1 := firstn (Z.to_nat start) t). set (t2 := firstn (Z.to_nat m) (skipn (Z.to_nat start) t)). set (t3 := skipn (Z.to_nat (start + m)) t).
  assert (T : t = t1 ++ t2 ++ t3).
  { unfold t1, t2, t3. rewrite <- (firstn_skipn (Z.to_nat start) t) at 1. f_equal. rewrite <- (firstn_skipn (Z.to_nat m) (skipn (Z.to_nat start) t)) at 1. f_equal. rewrite Z2Nat.inj_add by lia. clear. generalize (Z.to_nat start) (Z.to_nat m). intros n. revert t. induction n as [|n IH]; intros t k; [reflexivity|]. destruct t as [|x t]; [destruct k; reflexivity|]. cbn [skipn Nat.add]. apply IH. }
  assert (L1 : zlen t1 = start) by (unfold t1, zlen in *; rewrite firstn_length; lia). assert (L2 : zlen t2 = m) by (unfold t2, zlen in *; rewrite firstn_length, skipn_length; lia).
  assert (LL : zlen (a ++ t ++ b) = zlen a + ns + zlen b) by (unfold zlen in *; rewrite !app_length; lia). pose proof (zlen_nonneg b).
  assert (RW : a ++ t ++ b = (a ++ t1) ++ t2 ++ (t3 ++ b)) by (rewrite T, <- !app_assoc; reflexivity). assert (LA1 : length (a ++ t1) = Z.to_nat (base + start)) by (rewrite app_length; unfold zlen in *; lia).
  unfold ix at 1. replace m with (Z.of_nat (Z.to_nat m)) at 1 by lia. rewrite tf_read_slice by lia. cbn [obnd].
  assert (E2 : firstn (Z.to_nat m) (skipn (Z.to_nat (base + start)) (a ++ t ++ b)) = t2). { rewrite RW. rewrite drop_mid by exact LA1. apply take_mid. unfold zlen in L2. lia. }
  rewrite E2. unfold ix. rewrite <- (K t2 L2). rewrite tf_write_slice by (rewrite ?(K t2 L2); lia). rewrite (K t2 L2). f_equal. unfold windowed. fold t1 t2 t3. rewrite RW at 1. rewrite (take_mid (a ++ t1)) by exact LA1. rewrite RW.
  assert (E3 : skipn (Z.to_nat (base + start + m)) ((a ++ t1) ++ t2 ++ t3 ++ b) = t3 ++ b). { rewrite app_assoc. apply drop_mid. rewrite app_length. unfold zlen in *. lia. }
  rewrite E3, <- !app_assoc. reflexivity.
Qed.
Lemma zlen_concat ns : forall (ts : list (list F)), Forall (fun t => zlen t = ns) ts -> zlen (concat ts) = zlen ts * ns.
Proof. induction 1 as [|t ts T _ IH]; [reflexivity|]. cbn [concat]. unfold zlen in *. rewrite app_length. cbn [length]. lia. Qed.
Lemma tf_loop dbg flt ns nw c m start : (tf_centre c ns <? ns) = true -> tf_nw nw ns = m -> tf_centre c ns - m / 2 = start -> 0 <= start -> 0 <= m -> start + m <= ns ->
  (forall w, zlen w = m -> zlen (flt w) = m) ->
  forall traces, Forall (fun t => zlen t = ns) traces -> zlen traces * ns < two64 ->
  temporalFilter dbg (fun w => Done (flt w)) (zlen traces) ns nw c (concat traces) = Done (concat (map (windowed flt start m) traces)).
Proof.
  intros CC EM ES S0 M0 E K traces FT B. unfold temporalFilter. rewrite CC. unfold asserted. rewrite Bool.andb_false_r. set (body := fun i trc => _).
  assert (WL : forall t, zlen t = ns -> zlen (windowed flt start m t) = ns).
  { intros t T. unfold windowed, zlen in *. rewrite !app_length, firstn_length, skipn_length. pose proof (K (firstn (Z.to_nat m) (skipn (Z.to_nat start) t))) as KK. rewrite firstn_length, skipn_length in KK. lia. }
  assert (G : forall todo dn, Forall (fun t => zlen t = ns) todo -> Forall (fun t => zlen t = ns) dn -> (zlen dn + zlen todo) * ns < two64 ->
    for_each body (map (Z.add (zlen dn)) (zr (zlen todo))) (concat dn ++ concat todo) = Done (concat dn ++ concat (map (windowed flt start m) todo))).
  { clear traces FT B. induction todo as [|t todo IH]; intros dn FT FD B; [reflexivity|]. pose proof (Forall_inv FT) as T. pose proof (Forall_inv_tail FT) as FT'. cbv beta in T. unfold zlen at 2. cbn [length]. rewrite zr_cons. cbn [map for_each].
    assert (NS : 0 <= ns) by lia. pose proof (zlen_nonneg dn). pose proof (zlen_nonneg todo). assert (ZS : zlen (t :: todo) = zlen todo + 1) by (unfold zlen; cbn [length]; lia). rewrite ZS in B.
    assert (B1 : (zlen dn + 1) * ns < two64) by (apply Z.le_lt_trans with ((zlen dn + (zlen todo + 1)) * ns); [apply Z.mul_le_mono_nonneg_r; lia|exact B]).
    assert (P0 : 0 <= zlen dn * ns) by (apply Z.mul_nonneg_nonneg; lia). assert (BB : zlen dn * ns + ns < two64) by lia.
    assert (IX : map (tf_index ns nw c (zlen dn)) (zr m) = map (fun j => (zlen dn * ns + start) + j) (zr m)).
    { apply map_ext_in. intros j J. apply in_zr' in J. unfold tf_index. rewrite EM, ES. rewrite (u64_small (zlen dn * ns)) by (unfold in_u64; lia). rewrite (u64_small start) by (unfold in_u64; lia). rewrite (u64_small (zlen dn * ns + start)) by (unfold in_u64; lia). apply u64_small. unfold in_u64; lia. }
    assert (ST : body (zlen dn + 0) (concat dn ++ concat (t :: todo)) = Done (concat dn ++ windowed flt start m t ++ concat todo)).
    { rewrite Z.add_0_r. unfold body. cbv zeta. rewrite EM, IX. cbn [concat]. apply (tf_step flt ns m start (zlen dn * ns)); try assumption. apply zlen_concat, FD. }
    rewrite ST. cbn [obnd]. rewrite map_map, (map_ext (fun x => zlen dn + (1 + x)) (Z.add (zlen (dn ++ [windowed flt start m t])))) by (intros; unfold zlen; rewrite app_length; cbn [length]; lia).
    fold (zlen todo). rewrite app_assoc. replace (concat dn ++ windowed flt start m t) with (concat (dn ++ [windowed flt start m t])) by (rewrite concat_app; cbn [concat]; rewrite app_nil_r; reflexivity). rewrite IH.
    - rewrite concat_app. cbn [concat map]. rewrite app_nil_r, <- app_assoc. reflexivity.
    - exact FT'.
    - apply Forall_app. split; [exact FD|]. constructor; [apply WL, T|constructor].
    - unfold zlen at 1. rewrite app_length. cbn [length]. unfold zlen in *. lia. }
  specialize (G traces [] FT (Forall_nil _)). change (zlen []) with 0 in G. cbn [concat app] in G. rewrite Z.add_0_l in G. specialize (G B). rewrite (map_ext (Z.add 0) (fun x => x)), map_id in G by (intros; lia). exact G.
Qed.
Lemma tf_nw_odd x m nw ns : x = (if (nw =? 0) || (ns <? nw) then ns else nw) -> 1 <= x < two64 -> Z.odd m = true -> m <= x <= m + 1 -> tf_nw nw ns = m.
Proof.
  intros -> X O M. unfold tf_nw. cbv zeta. set (y := if (nw =? 0) || (ns <? nw) then ns else nw) in *. apply Zodd_bool_iff in O. apply Zodd_ex in O. destruct O as (k & O).
  assert (C : y = m \/ y = m + 1) by lia. destruct C as [C|C].
  - rewrite C. replace (m mod 2) with 1 by (rewrite O; apply (Z.mod_unique _ _ k 1); lia). reflexivity.
  - rewrite C. replace ((m + 1) mod 2) with 0 by (rewrite O; apply (Z.mod_unique _ _ (k + 1) 0); lia). cbn [Z.eqb negb]. rewrite u64_small by (unfold in_u64; lia). lia.
Qed.
(** Window of m samples (the largest odd number up to the size asked for, the whole
    trace for 0) around the centre (the middle for 0), all of it inside the trace:
    exactly that window of every trace is replaced by its filtered samples. *)
Theorem C76_inside_partial : forall dbg flt traces ns nw c, let x := if (nw =? 0) || (ns <? nw) then ns else nw in let cc := if c =? 0 then ns / 2 else c in
  forall m, Z.odd m = true -> m <= x <= m + 1 -> 0 <= nw -> 1 <= ns < two64 -> m / 2 <= cc -> cc + m / 2 < ns ->
  Forall (fun t => zlen t = ns) traces -> zlen traces * ns < two64 -> (forall w, zlen w = m -> zlen (flt w) = m) ->
  temporalFilter dbg (fun w => Done (flt w)) (zlen traces) ns nw c (concat traces) = Done (concat (map (windowed flt (cc - m / 2) m) traces)).
Proof.
  intros dbg flt traces ns nw c x cc m O M NW NS LO HI FT B K.
  assert (X : 1 <= x < two64) by (unfold x; destruct (Z.eqb_spec nw 0), (Z.ltb_spec ns nw); cbn [orb]; lia).
  pose proof (tf_nw_odd x m nw ns eq_refl X O M) as EM. apply Zodd_bool_iff in O. apply Zodd_ex in O. destruct O as (k & O). assert (MH : m / 2 = k) by (rewrite O; symmetry; apply (Z.div_unique _ _ k 1); lia).
  apply (tf_loop dbg flt ns nw c m (cc - m / 2)); try assumption; try (unfold tf_centre; fold cc; lia).
Qed.
Print Assumptions C76_inside_partial.
(** The default window: the whole trace, if its length is odd. *)
Theorem C76_default_odd_partial : forall dbg flt traces ns, Z.odd ns = true -> 1 <= ns -> Forall (fun t => zlen t = ns) traces -> zlen traces * ns < two64 -> ns < two64 -> (forall w, zlen w = ns -> zlen (flt w) = ns) ->
  temporalFilter dbg (fun w => Done (flt w)) (zlen traces) ns 0 0 (concat traces) = Done (concat (map flt traces)).
Proof.
  intros dbg flt traces ns O NS FT B NB K. pose proof O as O'. apply Zodd_bool_iff in O'. apply Zodd_ex in O'. destruct O' as (k & E). assert (H : ns / 2 = k) by (rewrite E; symmetry; apply (Z.div_unique _ _ k 1); lia).
  rewrite (C76_inside_partial dbg flt traces ns 0 0 ns); cbn [Z.eqb orb]; try assumption; try lia. f_equal. f_equal. apply map_ext_in. intros t T. rewrite Forall_forall in FT. specialize (FT t T). unfold windowed. replace (ns / 2 - ns / 2) with 0 by lia. cbn [Z.to_nat firstn skipn app Z.add]. unfold zlen in FT.
  rewrite firstn_all2 by lia. rewrite skipn_all2 by lia. apply app_nil_r.
Qed.
Print Assumptions C76_default_odd_partial.
(** For an even length the default leaves the first sample of every trace unfiltered. *)
Theorem C76_default_even_refuted : forall dbg flt traces ns, Z.even ns = true -> 2 <= ns -> Forall (fun t => zlen t = ns) traces -> zlen traces * ns < two64 -> ns < two64 -> (forall w, zlen w = ns - 1 -> zlen (flt w) = ns - 1) ->
  temporalFilter dbg (fun w => Done (flt w)) (zlen traces) ns 0 0 (concat traces) = Done (concat (map (fun t => firstn 1 t ++ flt (skipn 1 t)) traces)).
Proof.
  intros dbg flt traces ns O NS FT B NB K. apply Zeven_bool_iff in O. apply Zeven_ex in O. destruct O as (k & E). assert (H : ns / 2 = k) by (rewrite E; symmetry; apply (Z.div_unique _ _ k 0); lia). assert (H2 : (ns - 1) / 2 = k - 1) by (rewrite E; symmetry; apply (Z.div_unique _ _ (k - 1) 1); lia).
  assert (OD : Z.odd (ns - 1) = true) by (apply Zodd_bool_iff; rewrite E; replace (2 * k - 1) with (2 * (k - 1) + 1) by lia; apply Zodd_2p_plus_1).
  rewrite (C76_inside_partial dbg flt traces ns 0 0 (ns - 1)); cbn [Z.eqb orb]; try assumption; try lia. f_equal. f_equal. apply map_ext_in. intros t T. rewrite Forall_forall in FT. specialize (FT t T). unfold windowed. rewrite H, H2. replace (k - (k - 1)) with 1 by lia. change (Z.to_nat 1) with 1%nat. unfold zlen in FT. f_equal.
  rewrite (firstn_all2 (skipn 1 t)) by (rewrite skipn_length; lia). replace (Z.to_nat (1 + (ns - 1))) with (length t) by lia. rewrite (skipn_all t). apply app_nil_r.
Qed.
Print Assumptions C76_default_even_refuted.
(** A centre too near the start is accepted, and the window starts before the trace:
    the index wraps around and the first access is outside the array. *)
Theorem C76_outside_refuted : forall dbg flt traces ns, 5 <= ns -> traces <> [] -> Forall (fun t => zlen t = ns) traces -> zlen traces * ns + ns < two64 ->
  temporalFilter dbg flt (zlen traces) ns 0 1 (concat traces) = Undefined.
Proof.
  intros dbg flt traces ns NS NE FT B. assert (LC := zlen_concat ns traces FT). destruct traces as [|t0 ts]; [congruence|]. set (traces := t0 :: ts) in *. assert (L1 : 1 <= zlen traces) by (unfold traces, zlen; cbn [length]; lia).
  unfold temporalFilter. change (tf_centre 1 ns) with 1. destruct (Z.ltb_spec 1 ns); [|lia]. unfold asserted. rewrite Bool.andb_false_r. unfold zlen at 1. unfold traces at 1. cbn [length]. rewrite zr_cons. cbn [for_each].
  set (m := tf_nw 0 ns). assert (M : ns - 1 <= m <= ns). { unfold m, tf_nw. cbn [Z.eqb orb]. destruct (negb (ns mod 2 =? 0)); [lia|]. rewrite u64_small by (unfold in_u64; lia). lia. }
  assert (P0 : 1 * ns <= zlen traces * ns) by (apply Z.mul_le_mono_nonneg_r; lia).
  replace m with (Z.of_nat (S (Z.to_nat (m - 1)))) by lia. rewrite zr_cons. cbn [map tf_read]. assert (MH : 2 <= m / 2) by (apply Z.div_le_lower_bound; lia). assert (MH2 : m / 2 < m) by (apply Z.div_lt; lia).
  assert (I0 : tf_index ns 0 1 0 0 = two64 + 1 - m / 2).
  { unfold tf_index. fold m. change (tf_centre 1 ns) with 1. cbn [Z.mul]. change (u64 0) with 0. assert (W : u64 (1 - m / 2) = two64 + 1 - m / 2) by (unfold u64; symmetry; apply (Z.mod_unique _ _ (-1)); lia). rewrite W. rewrite Z.add_0_l, (u64_small (two64 + 1 - m / 2)) by (unfold in_u64; lia). rewrite Z.add_0_r. apply u64_small. unfold in_u64; lia. }
  rewrite I0. unfold zget at 1. destruct (Z.ltb_spec (two64 + 1 - m / 2) 0); [lia|]. destruct (nth_error (concat traces) (Z.to_nat (two64 + 1 - m / 2))) eqn:EN; [|reflexivity]. assert (NN : nth_error (concat traces) (Z.to_nat (two64 + 1 - m / 2)) <> None) by congruence. apply nth_error_Some in NN. exfalso. unfold zlen at 1 in LC. lia.
Qed.
Print Assumptions C76_outside_refuted.
(** A centre too near the end makes the window reach into the next trace, so the
    filtering of one trace changes another, and the last trace's window is outside. *)
Theorem C76_next_trace_refuted : exists flt ix, (forall w, zlen (flt w) = zlen w) /\ map (tf_index 4 3 3 0) (zr (tf_nw 3 4)) = ix /\ In 4 ix /\
  temporalFilter true (fun w => Done (flt w)) 2 4 3 3 (ints [1; 1; 1; 1; 1; 1; 1; 1]) = Undefined.
Proof.
  exists (map (fun _ => f0)). eexists. split; [intros w; unfold zlen; rewrite map_length; reflexivity|]. split; [reflexivity|]. split; [vm_compute; auto|]. vm_compute. reflexivity.
Qed.
Print Assumptions C76_next_trace_refuted.
Example C76_demo : shown (temporalFilter true (fun w => Done (map (fun _ => f0) w)) 2 5 3 1 (concat [ints [1; 2; 3; 4; 5]; ints [6; 7; 8; 9; 10]])) B2SF = Some (map (@B2SF _ _) (ints [0; 0; 0; 4; 5; 0; 0; 0; 9; 10])) /\ 3 / 2 <= 1 /\ 1 + 3 / 2 < 5.
Proof. split; [vm_compute; reflexivity|]. change (3 / 2) with 1. lia. Qed.

(** ---- C80 ---- *)
Lemma imap_repeat (f : Z -> F) n : forall k, imap (fun i _ => f i) k (repeat f0 n) = map (fun i => f (k + i)) (zr (Z.of_nat n)).
Proof.
  induction n as [|n IH]; intros k; [reflexivity|]. rewrite zr_cons. cbn [repeat imap map]. rewrite IH, map_map, Z.add_0_r. f_equal. apply map_ext. intros a. f_equal. lia.
Qed.
(** The padding loop when every value read is defined: a on the left, b on the right. *)
Lemma pad_loop p N w nw off (a b : F) L : 0 < off + nw -> off + nw + N <= L -> 0 <= N ->
  (forall i, 0 <= i < N -> pad_value p N w nw i = Done a /\ pad_value p N w (u64 (nw - 1)) (i + off + nw) = Done b) ->
  forall n, Z.of_nat n <= N -> for_each (fun i x => obnd (pad_value p N w nw i) (fun a => obnd (zset x i a) (fun x =>
          obnd (pad_value p N w (u64 (nw - 1)) (i + off + nw)) (fun b => zset x (i + off + nw) b)))) (zr (Z.of_nat n)) (repeat f0 (Z.to_nat L))
   = Done (imap (fun k _ => if k <? Z.of_nat n then a else if (off + nw <=? k) && (k <? off + nw + Z.of_nat n) then b else f0) 0 (repeat f0 (Z.to_nat L))).
Proof.
  intros B0 BN N0 H. assert (LL : zlen (repeat f0 (Z.to_nat L)) = L) by (unfold zlen; rewrite repeat_length; lia).
  induction n as [|n IH]; intros NN.
  - change (zr (Z.of_nat 0)) with (@nil Z). cbn [for_each]. f_equal. rewrite imap_repeat. clear. induction (Z.to_nat L) as [|k IH]; [reflexivity|]. rewrite zr_S, map_app. cbn [map]. rewrite <- IH. replace (S k) with (k + 1)%nat by lia. rewrite repeat_app. cbn [repeat]. f_equal. f_equal. destruct (Z.ltb_spec (0 + Z.of_nat k) (Z.of_nat 0)); [lia|]. destruct (Z.leb_spec (off + nw) (0 + Z.of_nat k)), (Z.ltb_spec (0 + Z.of_nat k) (off + nw + Z.of_nat 0)); try lia; reflexivity.
  - rewrite zr_S, for_each_app, IH by lia. cbn [obnd for_each]. destruct (H (Z.of_nat n)) as (HA & HB); [lia|]. rewrite HA. cbn [obnd]. rewrite zset_imap by (rewrite imap_zlen; lia). cbn [obnd]. rewrite HB. cbn [obnd]. rewrite zset_imap by (rewrite !imap_zlen; lia). cbn [obnd for_each]. f_equal. rewrite !imap_imap. apply imap_ext. intros i x I.
    destruct (Z.eqb_spec i (Z.of_nat n + off + nw)), (Z.eqb_spec i (Z.of_nat n)), (Z.ltb_spec i (Z.of_nat n)), (Z.ltb_spec i (Z.of_nat (S n))), (Z.leb_spec (off + nw) i), (Z.ltb_spec i (off + nw + Z.of_nat n)), (Z.ltb_spec i (off + nw + Z.of_nat (S n))); cbn [andb]; try lia; reflexivity.
Qed.
(** The copy of the window into the middle. *)
Lemma copy_loop (w : list F) N : 0 <= N -> forall n x, Z.of_nat n <= zlen w -> N + Z.of_nat n <= zlen x ->
  for_each (fun i x => obnd (zget w i) (fun a => zset x (i + N) a)) (zr (Z.of_nat n)) x = Done (imap (fun k v => if (N <=? k) && (k <? N + Z.of_nat n) then nth (Z.to_nat (k - N)) w f0 else v) 0 x).
Proof.
  intros N0. induction n as [|n IH]; intros x LW LX.
  - change (zr (Z.of_nat 0)) with (@nil Z). cbn [for_each]. f_equal. symmetry. apply imap_id. intros i v I. destruct (Z.leb_spec N i), (Z.ltb_spec i (N + Z.of_nat 0)); cbn [andb]; try lia; reflexivity.
  - rewrite zr_S, for_each_app, IH by lia. cbn [obnd for_each]. destruct (zget_ok w (Z.of_nat n)) as (y & -> & EY); [lia|]. cbn [obnd]. rewrite zset_imap by (rewrite imap_zlen; lia). cbn [obnd for_each]. f_equal. rewrite imap_imap. apply imap_ext. intros i v I.
    destruct (Z.eqb_spec i (Z.of_nat n + N)), (Z.leb_spec N i), (Z.ltb_spec i (N + Z.of_nat n)), (Z.ltb_spec i (N + Z.of_nat (S n))); cbn [andb]; try lia; try reflexivity.
    symmetry. apply nth_error_nth. replace (i - N) with (Z.of_nat n) by lia. exact EY.
Qed.
Lemma padded_value p numTail w a b : let N := 3 * (numTail + 1) in let nw := zlen w in 0 <= numTail -> w <> [] ->
  (forall i, 0 <= i < N -> pad_value p N w nw i = Done a /\ pad_value p N w (u64 (nw - 1)) (i + 3 * numTail + nw) = Done b) ->
  padded p numTail w = Done (repeat a (Z.to_nat N) ++ w ++ repeat b (Z.to_nat (N - 3)) ++ [f0; f0; f0]).
Proof.
  intros N nw T NE H. unfold padded. fold nw N. assert (P : 1 <= nw) by (unfold nw, zlen; destruct w; [congruence|cbn [length]; lia]).
  assert (EL : nw + 6 * (numTail + 1) = N + nw + N) by (unfold N; lia). rewrite EL. assert (L1 := pad_loop p N w nw (3 * numTail) a b (N + nw + N) ltac:(lia) ltac:(unfold N; lia) ltac:(unfold N; lia) H (Z.to_nat N) ltac:(unfold N; lia)).
  rewrite Z2Nat.id in L1 by (unfold N; lia). rewrite L1. cbn [obnd]. set (x := imap _ 0 _). assert (LX : zlen x = N + nw + N) by (unfold x; rewrite imap_zlen; unfold zlen; rewrite repeat_length; unfold N; lia).
  assert (EN : nw = Z.of_nat (length w)) by reflexivity. rewrite EN. rewrite copy_loop; [|unfold N; lia|unfold zlen; lia|unfold N in *; lia]. f_equal. rewrite <- EN. unfold x. rewrite imap_imap. clear L1 LX x. 
  apply nth_error_ext. intros i. rewrite imap_nth, Z.add_0_l.
  assert (NR : forall (c : F) n k, nth_error (repeat c n) k = if (k <? n)%nat then Some c else None).
  { clear. intros c n. induction n as [|n IH]; intros [|k]; try reflexivity. cbn [repeat nth_error]. rewrite IH. reflexivity. }
  rewrite NR. destruct (Nat.ltb_spec i (Z.to_nat (N + nw + N))) as [LI|LI]; cbn [option_map].
  2:{ symmetry. apply nth_error_None. rewrite !app_length, !repeat_length. cbn [length]. unfold N in *. lia. }
  destruct (Z.leb_spec N (Z.of_nat i)) as [A1|A1].
  - rewrite nth_error_app2, repeat_length by (rewrite repeat_length; unfold N in *; lia). cbn [andb]. destruct (Z.ltb_spec (Z.of_nat i) (N + nw)) as [A2|A2].
    + rewrite nth_error_app1 by (unfold N in *; lia). symmetry. replace (Z.to_nat (Z.of_nat i - N)) with (i - Z.to_nat N)%nat by (unfold N in *; lia). apply nth_error_nth'. unfold N in *; lia.
    + rewrite nth_error_app2 by (unfold N in *; lia). destruct (Z.ltb_spec (Z.of_nat i) N); [lia|]. destruct (Z.leb_spec (3 * numTail + nw) (Z.of_nat i)); [|unfold N in *; lia]. cbn [andb]. destruct (Z.ltb_spec (Z.of_nat i) (3 * numTail + nw + N)) as [A3|A3].
      * rewrite nth_error_app1, NR by (rewrite repeat_length; unfold N in *; lia). destruct (Nat.ltb_spec (i - Z.to_nat N - length w) (Z.to_nat (N - 3))); [reflexivity|unfold N in *; lia].
      * rewrite nth_error_app2, repeat_length by (rewrite repeat_length; unfold N in *; lia). set (k := (_ - _)%nat). assert (K : (k < 3)%nat) by (unfold k, N in *; lia). clearbody k. destruct k as [|[|[|k]]]; try reflexivity. lia.
  - destruct (Z.ltb_spec (Z.of_nat i) N); [|lia]. cbn [andb]. rewrite nth_error_app1, NR by (rewrite repeat_length; unfold N in *; lia). destruct (Nat.ltb_spec i (Z.to_nat N)); [reflexivity|unfold N in *; lia].
Qed.
(** Padding with zeros: zeros on both sides. *)
Theorem C80_zero_partial : forall numTail w, 0 <= numTail -> w <> [] -> let n := Z.to_nat (3 * (numTail + 1)) in
  padded PZero numTail w = Done (repeat f0 n ++ w ++ repeat f0 n).
Proof.
  intros numTail w T NE n. rewrite (padded_value PZero numTail w f0 f0 T NE) by (intros; split; reflexivity). do 3 f_equal. change [f0; f0; f0] with (repeat f0 3). rewrite <- repeat_app. f_equal. unfold n. lia.
Qed.
Print Assumptions C80_zero_partial.
(** Replicating the end samples, for windows at least as long as the padding (less
    one): the last three values are 0, not the last sample. *)
Theorem C80_replicate_refuted : forall numTail w x y, let n := 3 * (numTail + 1) in 0 <= numTail -> n - 1 <= zlen w -> n + 2 * zlen w < two64 ->
  nth_error w 0 = Some x -> nth_error w (length w - 1) = Some y ->
  padded PReplicate numTail w = Done (repeat x (Z.to_nat n) ++ w ++ repeat y (Z.to_nat (n - 3)) ++ [f0; f0; f0]).
Proof.
  intros numTail w x y n T L B HX HY. assert (P : 1 <= zlen w) by (unfold zlen; destruct w; [discriminate HX|cbn [length]; lia]).
  apply padded_value; [exact T|intros ->; discriminate HX|]. intros i I. unfold pad_value, pad_index. rewrite u64_small by (unfold in_u64; lia). destruct (Z.leb_spec i (zlen w)); [|unfold n in *; lia]. destruct (Z.leb_spec (i + 3 * numTail + zlen w) (zlen w - 1)); [lia|].
  unfold zget. cbn [Z.ltb Z.compare Z.to_nat]. rewrite HX. split; [reflexivity|]. destruct (Z.ltb_spec (zlen w - 1) 0); [lia|]. replace (Z.to_nat (zlen w - 1)) with (length w - 1)%nat by (unfold zlen; lia). rewrite HY. reflexivity.
Qed.
Print Assumptions C80_replicate_refuted.
Lemma padded_undef p numTail (w : list F) : 0 <= numTail -> w <> [] -> pad_value p (3 * (numTail + 1)) w (u64 (zlen w - 1)) (0 + 3 * numTail + zlen w) = Undefined -> padded p numTail w = Undefined.
Proof.
  intros T NE H. unfold padded. replace (3 * (numTail + 1)) with (Z.of_nat (S (Z.to_nat (3 * numTail + 2)))) in * by lia. rewrite zr_cons. cbn [for_each]. rewrite H.
  destruct (pad_value p _ w (zlen w) 0) as [a| |] eqn:E; cbn [obnd].
  - destruct (zset _ 0 a) as [z| |] eqn:EZ; cbn [obnd]; try reflexivity. unfold zset in EZ. destruct (_ && _) in EZ; discriminate EZ.
  - exfalso. clear - E. unfold pad_value, zget in E. destruct (pad_index p _ (zlen w) 0); [|discriminate E]. destruct (z <? 0); [discriminate E|]. destruct (nth_error w (Z.to_nat z)); discriminate E.
  - reflexivity.
Qed.
Lemma zget_past {A} (w : list A) i : zlen w <= i -> zget w i = Undefined.
Proof. intros H. unfold zget. pose proof (zlen_nonneg w). destruct (Z.ltb_spec i 0); [lia|]. replace (nth_error w (Z.to_nat i)) with (@None A); [reflexivity|]. symmetry. apply nth_error_None. unfold zlen in H. lia. Qed.
(** Mirrored and cyclic padding read outside the window, whatever it is. *)
Theorem C80_symmetric_refuted : forall numTail w, 0 <= numTail -> w <> [] -> 2 * (3 * (numTail + 1) + zlen w) < two64 -> padded PSymmetric numTail w = Undefined.
Proof.
  intros numTail w T NE B. assert (P : 1 <= zlen w) by (unfold zlen; destruct w; [congruence|cbn [length]; lia]). apply padded_undef; [exact T|exact NE|].
  unfold pad_value. cbn [pad_index]. rewrite (u64_small (zlen w - 1)) by (unfold in_u64; lia). destruct (Z.leb_spec (0 + 3 * numTail + zlen w) (zlen w - 1)); [lia|]. rewrite u64_small by (unfold in_u64; lia). apply zget_past. lia.
Qed.
Print Assumptions C80_symmetric_refuted.
Theorem C80_cyclic_refuted : forall numTail w, 0 <= numTail -> w <> [] -> 2 * (3 * (numTail + 1) + zlen w) < two64 -> padded PCyclic numTail w = Undefined.
Proof.
  intros numTail w T NE B. assert (P : 1 <= zlen w) by (unfold zlen; destruct w; [congruence|cbn [length]; lia]). apply padded_undef; [exact T|exact NE|].
  unfold pad_value. cbn [pad_index]. rewrite (u64_small (zlen w - 1)) by (unfold in_u64; lia). destruct (Z.leb_spec (0 + 3 * numTail + zlen w) (zlen w - 1)); [lia|]. rewrite (u64_small (0 + 3 * numTail + zlen w - (zlen w - 1))) by (unfold in_u64; lia).
  replace (0 + 3 * numTail + zlen w - (zlen w - 1) - 3 * (numTail + 1)) with (-2) by lia. change (u64 (-2)) with (two64 - 2). apply zget_past. lia.
Qed.
Print Assumptions C80_cyclic_refuted.
(** Replicating the end samples of a window shorter than the padding (less one) reads
    past its end. *)
Theorem C80_replicate_short_refuted : forall numTail w, let n := 3 * (numTail + 1) in 0 <= numTail -> w <> [] -> zlen w < n - 1 -> n + 2 * zlen w < two64 -> padded PReplicate numTail w = Undefined.
Proof.
  intros numTail w n T NE S B. assert (P : 1 <= zlen w) by (unfold zlen; destruct w; [congruence|cbn [length]; lia]). unfold padded. fold n.
  set (body := fun i x => _). set (x0 := repeat f0 _). assert (L0 : zlen x0 = zlen w + 6 * (numTail + 1)) by (unfold x0, zlen; rewrite repeat_length; lia). clearbody x0.
  assert (SP : zr n = zr (zlen w + 1) ++ (zlen w + 1) :: map (fun i => zlen w + 2 + i) (zr (n - zlen w - 2))).
  { replace n with ((zlen w + 1) + (1 + (n - zlen w - 2))) at 1 by lia. rewrite zr_app by lia. f_equal. rewrite (zr_app 1) by lia. cbn [map app]. change (zr 1) with [0]. cbn [map app]. rewrite Z.add_0_r. f_equal. rewrite map_map. apply map_ext. intros. lia. }
  assert (G : forall x, zlen x = zlen w + 6 * (numTail + 1) -> body (zlen w + 1) x = Undefined).
  { intros x LX. unfold body, pad_value. cbn [pad_index]. destruct (Z.leb_spec (zlen w + 1) (zlen w)); [lia|]. rewrite zget_past by lia. reflexivity. }
  assert (K : forall js x, (forall j, In j js -> 0 <= j < n) -> zlen x = zlen w + 6 * (numTail + 1) -> (exists x', for_each body js x = Done x' /\ zlen x' = zlen x) \/ for_each body js x = Undefined).
  { assert (ZG : forall i, (exists a, zget w i = Done a) \/ zget w i = Undefined) by (intros i; unfold zget; destruct (i <? 0); [auto|]; destruct (nth_error w (Z.to_nat i)); eauto).
    assert (ZZ : forall x i (a : F), (exists x', zset x i a = Done x' /\ zlen x' = zlen x) \/ zset x i a = Undefined) by (intros x i a; unfold zset; destruct (_ && _); [left; eexists; split; [reflexivity|unfold zlen; rewrite lset_length; reflexivity]|auto]).
    induction js as [|j js IH]; intros x J LX; [left; exists x; split; reflexivity|]. cbn [for_each].
    assert (BD : (exists x', body j x = Done x' /\ zlen x' = zlen x) \/ body j x = Undefined).
    { unfold body, pad_value. cbn [pad_index]. destruct (ZG (if j <=? zlen w then 0 else zlen w)) as [(a & ->)| ->]; [|auto]. cbn [obnd]. destruct (ZZ x j a) as [(x1 & -> & L1)| ->]; [|auto]. cbn [obnd]. destruct (ZG (if j + 3 * numTail + zlen w <=? u64 (zlen w - 1) then 0 else u64 (zlen w - 1))) as [(b & ->)| ->]; [|auto]. cbn [obnd]. destruct (ZZ x1 (j + 3 * numTail + zlen w) b) as [(x2 & -> & L2)| ->]; [|auto]. left. exists x2. split; [reflexivity|lia]. }
    destruct BD as [(x1 & -> & L1)| ->]; [|auto]. cbn [obnd]. destruct (IH x1) as [(x2 & E2 & L2)|E2]; [intros; apply J; right; assumption|lia| |]; [left; exists x2; split; [exact E2|lia]|auto]. }
  rewrite SP, for_each_app. destruct (K (zr (zlen w + 1)) x0) as [(x1 & -> & L1)| ->]; [intros j J; apply in_zr' in J; lia|exact L0| |reflexivity]. cbn [obnd for_each]. rewrite G by lia. reflexivity.
Qed.
Print Assumptions C80_replicate_short_refuted.
Example C80_demo : shown (padded PReplicate 1 (ints [1; 2; 3; 4; 5])) B2SF = Some (map (@B2SF _ _) (ints [1; 1; 1; 1; 1; 1; 1; 2; 3; 4; 5; 5; 5; 5; 0; 0; 0])) /\ padded PCyclic 1 (ints [1; 2; 3; 4; 5; 6; 7; 8]) = Undefined.
Proof. split; [vm_compute; reflexivity|]. apply C80_cyclic_refuted; [lia|discriminate|]. unfold ints, zlen. rewrite map_length. cbn [length]. unfold two64. lia. Qed.

(** ---- C81 ---- *)
Theorem C81_low_high_partial : forall dbg t a b, In t [Lowpass; Highpass] -> exists l, auto_order_call dbg t [a; b] = Done l.
Proof. intros dbg t a b [<-|[<-|[]]]; destruct dbg; eexists; reflexivity. Qed.
Print Assumptions C81_low_high_partial.
(** Band filters need four corners: two are accepted but four are read; four are
    refused by a debug build. *)
Theorem C81_band_refuted : forall t, In t [Bandpass; Bandstop] -> (forall dbg a b, auto_order_call dbg t [a; b] = Undefined) /\ (forall corners, length corners = 4%nat -> auto_order_call true t corners = Abort).
Proof.
  intros t [<-|[<-|[]]]; (split; [intros [] a b; reflexivity|]); intros [|a [|b [|c [|d [|e l]]]]] H; try discriminate H; reflexivity.
Qed.
Print Assumptions C81_band_refuted.
Example C81_demo : exists l, auto_order_call true Lowpass (ints [10; 20]) = Done l.
Proof. apply C81_low_high_partial. left. reflexivity. Qed.
