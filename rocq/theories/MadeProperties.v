(** More about the test file maker: C84 (the values of the samples). *)
From Coq Require Import Reals Lra Lia.
From Flocq Require Import Core IEEE754.BinarySingleNaN.
From Verif Require Import Base DataIOModel DataIOProofs DecompProofs FloatModel FloatProofs SignalProperties ToolModel ToolProperties.
Import ListNotations.
Open Scope Z_scope.

Definition is_quarter (x : F) (m : Z) : Prop := ffin x /\ B2R x = (IZR m / 4)%R.
Lemma quarter_format m : Z.abs m < two24 -> generic_format radix2 (SpecFloat.fexp prec32 emax32) (IZR m / 4).
Proof.
  intros H. apply generic_format_FLT. exists (Float radix2 m (-2)).
  - unfold F2R. cbn [Fnum Fexp]. change (bpow radix2 (-2)) with (/ 4)%R. reflexivity.
  - cbn [Fnum]. change (radix2 ^ prec32) with 16777216. exact H.
  - cbn [Fexp]. unfold SpecFloat.emin, prec32, emax32. lia.
Qed.
Lemma quarter_rnd m : Z.abs m < two24 -> rnd (IZR m / 4) = (IZR m / 4)%R.
Proof. intros H. apply round_generic; [apply valid_rnd_round_mode|apply quarter_format, H]. Qed.
Lemma quarter_small m : Z.abs m < two24 -> (Rabs (IZR m / 4) < bpow radix2 emax32)%R.
Proof.
  intros H. apply Rle_lt_trans with (Rabs (IZR m)); [|apply int_small; lia]. unfold Rdiv. rewrite Rabs_mult, (Rabs_pos_eq (/ 4)) by lra. pose proof (Rabs_pos (IZR m)). lra.
Qed.
Lemma add_quarter a b m n : is_quarter a m -> is_quarter b n -> Z.abs (m + n) < two24 -> is_quarter (fadd a b) (m + n).
Proof.
  intros (FA & VA) (FB & VB) H. pose proof (Bplus_correct prec32 emax32 Hprec32 Hmax32 mode_NE a b FA FB) as C.
  replace (B2R a + B2R b)%R with (IZR (m + n) / 4)%R in C by (rewrite VA, VB, plus_IZR; field). rewrite (quarter_rnd _ H) in C. rewrite Rlt_bool_true in C by (apply quarter_small, H). destruct C as (A & B & _). split; assumption.
Qed.
Lemma sub_quarter a b m n : is_quarter a m -> is_quarter b n -> Z.abs (m - n) < two24 -> is_quarter (fsub a b) (m - n).
Proof.
  intros (FA & VA) (FB & VB) H. pose proof (Bminus_correct prec32 emax32 Hprec32 Hmax32 mode_NE a b FA FB) as C.
  replace (B2R a - B2R b)%R with (IZR (m - n) / 4)%R in C by (rewrite VA, VB, minus_IZR; field). rewrite (quarter_rnd _ H) in C. rewrite Rlt_bool_true in C by (apply quarter_small, H). destruct C as (A & B & _). split; assumption.
Qed.
Lemma div_quarter n k : 0 <= n -> 2 * n < two24 -> k = 2 \/ k = 4 -> is_quarter (fdiv (f_of_Z n) (f_of_Z k)) (4 / k * n).
Proof.
  intros N B K. destruct (of_Z_int n) as (F1 & V1); [lia|]. destruct (of_Z_int k) as (F2 & V2); [unfold two24; lia|].
  assert (E : (B2R (f_of_Z n) / B2R (f_of_Z k) = IZR (4 / k * n) / 4)%R) by (rewrite V1, V2, mult_IZR; destruct K as [-> | ->]; [change (4 / 2) with 2|change (4 / 4) with 1]; field).
  assert (S : Z.abs (4 / k * n) < two24) by (destruct K as [-> | ->]; [change (4 / 2) with 2|change (4 / 4) with 1]; lia).
  destruct (div_correct (f_of_Z n) (f_of_Z k) F1 F2) as (FD & VD).
  - rewrite V2. destruct K as [-> | ->]; lra.
  - rewrite E, (quarter_rnd _ S). apply quarter_small, S.
  - split; [exact FD|]. rewrite VD, E. apply quarter_rnd, S.
Qed.
Lemma sample_value nt ns i : 0 <= nt * ns <= 4194304 -> 0 <= i < nt * ns -> is_quarter (fm_sample nt ns i) (nt * ns - Z.abs (4 * i - 2 * (nt * ns))).
Proof.
  intros N I. unfold fm_sample, fm_half, fm_off. set (n := nt * ns) in *. rewrite u64_small by (unfold in_u64, two64; lia).
  assert (H : is_quarter (fdiv (f_of_Z n) (f_of_Z 2)) (2 * n)) by (apply (div_quarter n 2); [lia|unfold two24; lia|left; reflexivity]).
  assert (O : is_quarter (fdiv (f_of_Z n) (f_of_Z 4)) n) by (pose proof (div_quarter n 4 ltac:(lia) ltac:(unfold two24; lia) ltac:(right; reflexivity)) as Q; change (4 / 4) with 1 in Q; rewrite Z.mul_1_l in Q; exact Q).
  assert (OP : is_quarter (Bopp (fdiv (f_of_Z n) (f_of_Z 2))) (- (2 * n))).
  { destruct H as (FH & VH). split; [unfold ffin; rewrite is_finite_Bopp; exact FH|]. rewrite B2R_Bopp, VH, opp_IZR. field. }
  assert (II : is_quarter (f_of_Z i) (4 * i)) by (destruct (of_Z_int i) as (F1 & V1); [unfold two24; lia|]; split; [exact F1|rewrite V1, mult_IZR; field]).
  pose proof (add_quarter _ _ _ _ OP II ltac:(unfold two24; lia)) as A.
  assert (AB : is_quarter (fabs (fadd (Bopp (fdiv (f_of_Z n) (f_of_Z 2))) (f_of_Z i))) (Z.abs (4 * i - 2 * n))).
  { destruct A as (FA & VA). destruct (abs_correct _ FA) as (FB & VB). split; [exact FB|]. rewrite VB, VA. replace (- (2 * n) + 4 * i) with (4 * i - 2 * n) by lia. unfold Rdiv. rewrite Rabs_mult, (Rabs_pos_eq (/ 4)), <- abs_IZR by lra. reflexivity. }
  pose proof (sub_quarter _ _ _ _ H AB ltac:(unfold two24; lia)) as S1. pose proof (sub_quarter _ _ _ _ S1 O ltac:(unfold two24; lia)) as S2.
  replace (n - Z.abs (4 * i - 2 * n)) with (2 * n - Z.abs (4 * i - 2 * n) - n) by lia. exact S2.
Qed.

(** C84: in a file of n = nt * ns samples, at most 2^22, made on any number of processes in
    batches of any size, sample s of trace t is exactly n/4 - |i - n/2| with i = t * ns + s: it
    rises by one per sample from -n/4 to the middle of the file, and falls again. *)
Theorem C84_samples : forall nt ns p max, 0 <= nt -> 0 <= ns -> 0 < p -> nt * ns <= 4194304 -> in_u64 nt -> (0 < max)%nat ->
  forall t m, In (t, m) (made_file nt ns p max) -> forall s, 0 <= s < ns ->
  exists x, nth_error (fst (fst m)) (Z.to_nat s) = Some x /\ is_finite x = true /\
  B2R x = (IZR (nt * ns) / 4 - Rabs (IZR (t * ns + s) - IZR (nt * ns) / 2))%R.
Proof.
  intros nt ns p max NT NS P B IN M t m I s S. rewrite (C84_contents nt ns p max IN NS P) in I by (first [assumption|unfold two64; lia]).
  apply in_map_iff in I. destruct I as (t' & E & T). apply in_zr in T. injection E as -> <-. unfold should_hold. cbn [fst].
  assert (N0 : 0 <= nt * ns) by (apply Z.mul_nonneg_nonneg; lia).
  assert (R : 0 <= t * ns + s < nt * ns).
  { assert (0 <= t * ns) by (apply Z.mul_nonneg_nonneg; lia). assert (0 <= (nt - (t + 1)) * ns) by (apply Z.mul_nonneg_nonneg; lia). replace (nt * ns) with ((nt - (t + 1)) * ns + t * ns + ns) by ring. lia. }
  exists (fm_sample nt ns (t * ns + s)). split.
  - erewrite map_nth_error; [reflexivity|]. unfold zr. unfold zrange. erewrite map_nth_error; [|apply nth_error_nth' with (d := 0%nat)]; [|rewrite seq_length; lia]. rewrite seq_nth by lia. f_equal. lia.
  - destruct (sample_value nt ns (t * ns + s) ltac:(lia) R) as (F1 & V1). split; [exact F1|]. rewrite V1, minus_IZR, abs_IZR, minus_IZR, !(mult_IZR 4), !(mult_IZR 2).
    replace (IZR (t * ns + s) - IZR (nt * ns) / 2)%R with ((4 * IZR (t * ns + s) - 2 * IZR (nt * ns)) / 4)%R by field. unfold Rdiv at 3. rewrite Rabs_mult, (Rabs_pos_eq (/ 4)) by lra. field.
Qed.
Print Assumptions C84_samples.
Example C84_samples_nonvacuous : 5 * 3 <= 4194304 /\ in_u64 5 /\ In 4 (map fst (made_file 5 3 2 2)).
Proof. split; [lia|]. split; [unfold in_u64, two64; lia|]. vm_compute. tauto. Qed.
