(** Comparison and exact arithmetic of floats. *)
From Coq Require Import Reals Lra Lia.
From Flocq Require Import Core IEEE754.BinarySingleNaN.
From Verif Require Import Base FloatModel SortSpec MinMaxProofs.
Open Scope Z_scope.

Definition fnum (x : F) : Prop := is_nan x = false.
Definition ffin (x : F) : Prop := is_finite x = true.
(** The value of a float that is not NaN, infinities beyond all finite numbers. *)
Definition fext (x : F) : R :=
  match x with
  | B754_infinity s => if s then (- bpow radix2 128)%R else bpow radix2 128
  | _ => B2R x
  end.
Lemma fbig_pos : (0 < bpow radix2 128)%R. Proof. apply bpow_gt_0. Qed.
Lemma ffin_bound (x : F) : (- bpow radix2 128 < B2R x < bpow radix2 128)%R.
Proof. pose proof (abs_B2R_lt_emax prec32 emax32 x) as H. apply Rabs_lt_inv in H. exact H. Qed.
Lemma fext_fin (x : F) : ffin x -> fext x = B2R x.
Proof. destruct x; intros H; try reflexivity; discriminate H. Qed.
Lemma fltb_fin_inf x s : ffin x -> fltb x (B754_infinity s) = negb s.
Proof. destruct x as [[]|[]| |[]]; intros Fx; try discriminate Fx; destruct s; reflexivity. Qed.
Lemma fltb_inf_fin x s : ffin x -> fltb (B754_infinity s) x = s.
Proof. destruct x as [[]|[]| |[]]; intros Fx; try discriminate Fx; destruct s; reflexivity. Qed.
Lemma fnum_cases x : fnum x -> ffin x \/ exists s, x = B754_infinity s.
Proof. destruct x; intros H; [left; reflexivity|right; eauto|discriminate H|left; reflexivity]. Qed.
Lemma fltb_spec x y : fnum x -> fnum y -> fltb x y = true <-> (fext x < fext y)%R.
Proof.
  intros NX NY. pose proof fbig_pos as BP. pose proof (ffin_bound x) as BX. pose proof (ffin_bound y) as BY.
  destruct (fnum_cases x NX) as [FX|(s & ->)], (fnum_cases y NY) as [FY|(s' & ->)].
  - rewrite !fext_fin by assumption. unfold fltb. rewrite (Bltb_correct prec32 emax32 x y FX FY). split; [intros E|intros E; apply Rlt_bool_true, E].
    revert E. destruct (Rlt_bool_spec (B2R x) (B2R y)); [auto|discriminate].
  - rewrite (fltb_fin_inf x s' FX), (fext_fin x FX). unfold fext. clear BY. revert BP BX. generalize (bpow radix2 128) (B2R x). intros b v. destruct s'; cbn [negb]; (split; [intros; try discriminate; lra|intros; try reflexivity; lra]).
  - rewrite (fltb_inf_fin y s FY), (fext_fin y FY). unfold fext. clear BX. revert BP BY. generalize (bpow radix2 128) (B2R y). intros b v. destruct s; (split; [intros; try discriminate; lra|intros; try reflexivity; lra]).
  - unfold fext. clear BX BY. revert BP. generalize (bpow radix2 128). intros b. destruct s, s'; cbn [fltb Bltb B2SF SpecFloat.SFltb SpecFloat.SFcompare]; (split; [intros; try discriminate; lra|intros; try reflexivity; lra]).
Qed.
Lemma fltb_weak : strict_weak fnum fltb.
Proof.
  apply (keys_weak fnum fltb (fun x => [fext x])); [|reflexivity]. intros a b A B. rewrite (fltb_spec a b A B). cbn [lex]. split; [auto|]. intros [H|(_ & [])]; exact H.
Qed.

(** Integers of at most 24 bits are floats, and their sums, differences and products
    are exact while they fit. *)
Definition is_int (x : F) (m : Z) : Prop := ffin x /\ B2R x = IZR m.
Definition two24 : Z := 16777216.
Notation rnd := (round radix2 (SpecFloat.fexp prec32 emax32) (round_mode mode_NE)).
Lemma int_format m : Z.abs m <= two24 -> generic_format radix2 (SpecFloat.fexp prec32 emax32) (IZR m).
Proof.
  intros H. apply generic_format_FLT. destruct (Z.eq_dec (Z.abs m) two24) as [E|E].
  - exists (Float radix2 (m / 2) 1).
    + unfold F2R. cbn [Fnum Fexp]. change (bpow radix2 1) with 2%R. rewrite <- mult_IZR. f_equal. unfold two24 in E. destruct (Z.abs_spec m) as [(_ & A)|(_ & A)]; rewrite A in E; [subst m|assert (m = -16777216) as -> by lia]; reflexivity.
    + cbn [Fnum]. change (radix2 ^ prec32) with 16777216. unfold two24 in E. destruct (Z.abs_spec m) as [(_ & A)|(_ & A)]; rewrite A in E; [subst m|assert (m = -16777216) as -> by lia]; reflexivity.
    + cbn [Fexp]. unfold SpecFloat.emin, prec32, emax32. lia.
  - exists (Float radix2 m 0).
    + unfold F2R. cbn [Fnum Fexp bpow]. lra.
    + cbn [Fnum]. change (radix2 ^ prec32) with 16777216. unfold two24 in *. lia.
    + cbn [Fexp]. unfold SpecFloat.emin, prec32, emax32. lia.
Qed.
Lemma int_small m : Z.abs m <= two24 -> (Rabs (IZR m) < bpow radix2 emax32)%R.
Proof.
  intros H. rewrite <- abs_IZR. apply Rle_lt_trans with (IZR two24); [apply IZR_le, H|]. change (IZR two24) with (bpow radix2 24). apply bpow_lt. reflexivity.
Qed.
Lemma int_rnd m : Z.abs m <= two24 -> rnd (IZR m) = IZR m.
Proof. intros H. apply round_generic; [apply valid_rnd_round_mode|apply int_format, H]. Qed.
Lemma of_Z_int m : Z.abs m <= two24 -> is_int (f_of_Z m) m.
Proof.
  intros H. pose proof (binary_normalize_correct prec32 emax32 Hprec32 Hmax32 mode_NE m 0 false) as C. cbv zeta in C.
  assert (E : F2R (Float radix2 m 0) = IZR m) by (unfold F2R; cbn [Fnum Fexp bpow]; lra). rewrite E in C. rewrite (int_rnd m H) in C. rewrite Rlt_bool_true in C by (apply int_small, H). destruct C as (A & B & _). split; assumption.
Qed.
Lemma add_int a b m n : is_int a m -> is_int b n -> Z.abs (m + n) <= two24 -> is_int (fadd a b) (m + n).
Proof.
  intros (FA & VA) (FB & VB) H. pose proof (Bplus_correct prec32 emax32 Hprec32 Hmax32 mode_NE a b FA FB) as C. rewrite VA, VB, <- plus_IZR, (int_rnd _ H) in C. rewrite Rlt_bool_true in C by (apply int_small, H). destruct C as (A & B & _). split; assumption.
Qed.
Lemma sub_int a b m n : is_int a m -> is_int b n -> Z.abs (m - n) <= two24 -> is_int (fsub a b) (m - n).
Proof.
  intros (FA & VA) (FB & VB) H. pose proof (Bminus_correct prec32 emax32 Hprec32 Hmax32 mode_NE a b FA FB) as C. rewrite VA, VB, <- minus_IZR, (int_rnd _ H) in C. rewrite Rlt_bool_true in C by (apply int_small, H). destruct C as (A & B & _). split; assumption.
Qed.
Lemma mul_int a b m n : is_int a m -> is_int b n -> Z.abs (m * n) <= two24 -> is_int (fmul a b) (m * n).
Proof.
  intros (FA & VA) (FB & VB) H. pose proof (Bmult_correct prec32 emax32 Hprec32 Hmax32 mode_NE a b) as C. rewrite VA, VB, <- mult_IZR, (int_rnd _ H) in C. rewrite Rlt_bool_true in C by (apply int_small, H). destruct C as (A & B & _). split; [|exact A]. unfold ffin in *. rewrite FA, FB in B. exact B.
Qed.
Lemma eqb_int a m : is_int a m -> feqb a f0 = (m =? 0).
Proof.
  intros (FA & VA). unfold feqb. rewrite (Beqb_correct prec32 emax32 a f0 FA eq_refl). cbn [B2R f0]. rewrite VA. destruct (Z.eqb_spec m 0) as [->|N]; [apply Req_bool_true; reflexivity|apply Req_bool_false; intros C; apply N, eq_IZR, C].
Qed.
(** Division and square root are correctly rounded. *)
Lemma div_correct a b : ffin a -> ffin b -> B2R b <> 0%R -> (Rabs (rnd (B2R a / B2R b)) < bpow radix2 emax32)%R -> ffin (fdiv a b) /\ B2R (fdiv a b) = rnd (B2R a / B2R b).
Proof.
  intros FA FB NZ H. pose proof (Bdiv_correct prec32 emax32 Hprec32 Hmax32 mode_NE a b NZ) as C. rewrite Rlt_bool_true in C by exact H. destruct C as (A & B & _). split; [|exact A]. unfold ffin in *. rewrite <- FA. exact B.
Qed.
Lemma sqrt_correct a : ffin a -> (0 <= B2R a)%R -> Bsign a = false -> ffin (fsqrt a) /\ B2R (fsqrt a) = rnd (sqrt (B2R a)).
Proof.
  intros FA P S. pose proof (Bsqrt_correct prec32 emax32 Hprec32 Hmax32 mode_NE a) as (A & B & _). split; [|exact A]. unfold ffin, fsqrt. rewrite B. destruct a as [| | |[] ? ? ?]; try reflexivity; try discriminate FA. discriminate S.
Qed.
