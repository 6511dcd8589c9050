From Coq Require Import Reals Lra.
From Flocq Require Import Core IEEE754.BinarySingleNaN.
From Flocq Require Import Relative.
From Verif Require Import Base DoubleModel ParamModel.
Open Scope Z_scope.

Definition fx : Z -> Z := FLT_exp (-1074) 53.
#[global] Instance fx_valid : Valid_exp fx. Proof. apply FLT_exp_valid. reflexivity. Qed.
Definition rn : R -> R := round radix2 fx ZnearestE.
Definition val (x : D) : R := B2R x.
Definition fin (x : D) : Prop := is_finite x = true.

Lemma dmul_spec a b : (Rabs (rn (val a * val b)) < bpow radix2 1024)%R ->
  val (dmul a b) = rn (val a * val b) /\ is_finite (dmul a b) = (is_finite a && is_finite b)%bool.
Proof.
  intros H. pose proof (Bmult_correct prec64 emax64 Hprec64 Hmax64 mode_NE a b) as C.
  change (round radix2 (SpecFloat.fexp prec64 emax64) (round_mode mode_NE) (B2R a * B2R b)) with (rn (val a * val b)) in C.
  change (bpow radix2 emax64) with (bpow radix2 1024) in C.
  rewrite Rlt_bool_true in C by exact H. destruct C as (C1 & C2 & _). split; assumption.
Qed.
Lemma ddiv_spec a b : val b <> 0%R -> (Rabs (rn (val a / val b)) < bpow radix2 1024)%R ->
  val (ddiv a b) = rn (val a / val b) /\ is_finite (ddiv a b) = is_finite a.
Proof.
  intros N H. pose proof (Bdiv_correct prec64 emax64 Hprec64 Hmax64 mode_NE a b N) as C.
  change (round radix2 (SpecFloat.fexp prec64 emax64) (round_mode mode_NE) (B2R a / B2R b)) with (rn (val a / val b)) in C.
  change (bpow radix2 emax64) with (bpow radix2 1024) in C.
  rewrite Rlt_bool_true in C by exact H. destruct C as (C1 & C2 & _). split; assumption.
Qed.
Lemma ddiv_finite_spec a b : val b <> 0%R -> fin (ddiv a b) -> val (ddiv a b) = rn (val a / val b).
Proof.
  intros N F. destruct (Rlt_le_dec (Rabs (rn (val a / val b))) (bpow radix2 1024)) as [H|H]; [apply ddiv_spec; assumption|].
  pose proof (Bdiv_correct prec64 emax64 Hprec64 Hmax64 mode_NE a b N) as C.
  change (round radix2 (SpecFloat.fexp prec64 emax64) (round_mode mode_NE) (B2R a / B2R b)) with (rn (val a / val b)) in C.
  change (bpow radix2 emax64) with (bpow radix2 1024) in C.
  rewrite Rlt_bool_false in C by exact H. unfold fin, ddiv in F. rewrite is_finite_SF_B2SF in F || idtac.
  exfalso. revert F C. destruct (Bdiv mode_NE a b); cbn; try discriminate; intros _ C; discriminate.
Qed.
Lemma d_of_Z_spec z : (Rabs (rn (IZR z)) < bpow radix2 1024)%R -> val (d_of_Z z) = rn (IZR z) /\ fin (d_of_Z z).
Proof.
  intros H. pose proof (binary_normalize_correct prec64 emax64 Hprec64 Hmax64 mode_NE z 0 false) as C.
  assert (E : F2R (Float radix2 z 0) = IZR z) by (unfold F2R; cbn; ring). cbv zeta in C. rewrite E in C.
  change (round radix2 (SpecFloat.fexp prec64 emax64) (round_mode mode_NE) (IZR z)) with (rn (IZR z)) in C.
  change (bpow radix2 emax64) with (bpow radix2 1024) in C.
  rewrite Rlt_bool_true in C by exact H. destruct C as (C1 & C2 & _). split; assumption.
Qed.
Lemma int_format z : Z.abs z <= 2 ^ 53 -> generic_format radix2 fx (IZR z).
Proof.
  intros H. destruct (Z.eq_dec (Z.abs z) (2 ^ 53)) as [E|N].
  - assert (G : generic_format radix2 fx (IZR (2 ^ 53))).
    { change (IZR (2 ^ 53)) with (IZR (Zpower radix2 53)). rewrite IZR_Zpower by lia. apply generic_format_bpow. unfold fx, FLT_exp. lia. }
    destruct (Z.abs_spec z) as [(_ & A)|(_ & A)]; rewrite A in E; [rewrite E; exact G|].
    replace z with (- (2 ^ 53)) by lia. rewrite opp_IZR. apply generic_format_opp. exact G.
  - apply generic_format_FLT. exists (Float radix2 z 0); [unfold F2R; cbn; ring|cbn; lia|cbn; lia].
Qed.
Lemma int_small z : Z.abs z <= 2 ^ 53 -> (Rabs (IZR z) < bpow radix2 1024)%R.
Proof.
  intros H. rewrite <- abs_IZR. apply Rle_lt_trans with (IZR (2 ^ 53)); [apply IZR_le, H|].
  change (IZR (2 ^ 53)) with (IZR (Zpower radix2 53)). rewrite IZR_Zpower by lia. apply bpow_lt. lia.
Qed.
Lemma d_of_Z_exact z : Z.abs z <= 2 ^ 53 -> val (d_of_Z z) = IZR z /\ fin (d_of_Z z).
Proof.
  intros H. assert (E : rn (IZR z) = IZR z) by (apply round_generic; [apply valid_rnd_N|apply int_format, H]).
  rewrite <- E at 1. apply d_of_Z_spec. rewrite E. apply int_small, H.
Qed.
Lemma rn_error x : exists eps eta, (Rabs eps <= bpow radix2 (-53))%R /\ (Rabs eta <= bpow radix2 (-1075))%R /\ (rn x = x * (1 + eps) + eta)%R.
Proof.
  destruct (error_N_FLT radix2 (-1074) 53 eq_refl (fun x => negb (Z.even x)) x) as (eps & eta & A & B & _ & C).
  exists eps, eta. split; [|split; [|exact C]].
  - eapply Rle_trans; [exact A|]. change (-53 + 1) with (-52). replace (-53) with (-1 + -52) by lia. rewrite bpow_plus. cbn. lra.
  - eapply Rle_trans; [exact B|]. replace (-1075) with (-1 + -1074) by lia. rewrite bpow_plus. apply Req_le. f_equal; cbn; lra.
Qed.

(** ---- std::lround ---- *)
Lemma half_up_spec m n : 0 < n -> 2 ^ n * half_up m n <= m + 2 ^ (n - 1) < 2 ^ n * half_up m n + 2 ^ n.
Proof.
  intros H. unfold half_up. rewrite Z.shiftr_div_pow2, Z.shiftl_1_l by lia.
  pose proof (Z.mul_div_le (m + 2 ^ (n - 1)) (2 ^ n) ltac:(apply Z.pow_pos_nonneg; lia)).
  pose proof (Z.mul_succ_div_gt (m + 2 ^ (n - 1)) (2 ^ n) ltac:(apply Z.pow_pos_nonneg; lia)). lia.
Qed.
Lemma pow_IZR k : 0 <= k -> IZR (2 ^ k) = bpow radix2 k.
Proof. intros H. change (2 ^ k) with (Zpower radix2 k). apply IZR_Zpower. exact H. Qed.
Lemma dlround_near x n : dlround x = Some n -> fin x /\ (Rabs (IZR n - val x) <= / 2)%R.
Proof.
  unfold dlround, fin, val. destruct x as [s|s| |s m e B]; try discriminate.
  - intros H; injection H as <-. split; [reflexivity|]. cbn. rewrite Rminus_0_r, Rabs_R0. lra.
  - set (a := if 0 <=? e then _ else _). set (r := if s then - a else a). destruct (_ && _); [|discriminate]. intros H; injection H as <-.
    split; [reflexivity|]. cbn [B2R].
    assert (A : (Rabs (IZR a - F2R (Float radix2 (Zpos m) e)) <= / 2)%R).
    { unfold a, F2R. cbn [Fnum Fexp]. destruct (Z.leb_spec 0 e) as [L|L].
      - rewrite Z.shiftl_mul_pow2, mult_IZR, pow_IZR by lia. rewrite Rminus_diag_eq by reflexivity. rewrite Rabs_R0. lra.
      - pose proof (half_up_spec (Zpos m) (- e) ltac:(lia)) as (P1 & P2). set (h := half_up _ _) in *. clearbody h.
        set (k := - e) in *. replace e with (- k) by lia. rewrite bpow_opp.
        assert (K : (0 < bpow radix2 k)%R) by apply bpow_gt_0.
        assert (K2 : bpow radix2 k = (2 * bpow radix2 (k - 1))%R) by (replace k with (1 + (k - 1)) at 1 by lia; rewrite bpow_plus; f_equal; cbn; lra).
        apply IZR_le in P1. apply IZR_lt in P2. rewrite plus_IZR, mult_IZR, !pow_IZR in P1 by lia.
        rewrite plus_IZR, plus_IZR, mult_IZR, !pow_IZR in P2 by lia.
        set (b := bpow radix2 k) in *. set (b1 := bpow radix2 (k - 1)) in *.
        replace (IZR h - IZR (Z.pos m) * / b)%R with ((b * IZR h - IZR (Z.pos m)) * / b)%R by (field; lra).
        rewrite Rabs_mult, (Rabs_pos_eq (/ b)) by (left; apply Rinv_0_lt_compat; exact K).
        assert (Q : (Rabs (b * IZR h - IZR (Z.pos m)) <= b1)%R) by (apply Rabs_le; lra).
        apply Rle_trans with (b1 * / b)%R; [apply Rmult_le_compat_r; [left; apply Rinv_0_lt_compat; exact K|exact Q]|].
        rewrite K2. right. field. lra. }
    unfold r. destruct s; [|exact A]. change (cond_Zopp true (Z.pos m)) with (- Z.pos m).
    replace (F2R (Float radix2 (- Z.pos m) e)) with (- F2R (Float radix2 (Z.pos m) e))%R by (rewrite <- F2R_Zopp; reflexivity).
    rewrite opp_IZR. replace (- IZR a - - F2R (Float radix2 (Z.pos m) e))%R with (- (IZR a - F2R (Float radix2 (Z.pos m) e)))%R by ring.
    rewrite Rabs_Ropp. exact A.
Qed.
(** the rounded magnitude, before the range test *)
Definition lr_raw (x : D) : Z :=
  match x with
  | B754_finite s m e _ => let a := if 0 <=? e then Z.shiftl (Zpos m) e else half_up (Zpos m) (- e) in if s then - a else a
  | _ => 0
  end.
Lemma dlround_raw x : fin x -> dlround x = if (-9223372036854775808 <=? lr_raw x) && (lr_raw x <=? 9223372036854775807) then Some (lr_raw x) else None.
Proof. destruct x; cbn; try discriminate; reflexivity. Qed.
Lemma lr_raw_near x : fin x -> (Rabs (IZR (lr_raw x) - val x) <= / 2)%R.
Proof.
  intros F. destruct x as [s|s| |s m e B]; try discriminate.
  - cbn. rewrite Rminus_0_r, Rabs_R0. lra.
  - (* same argument as above, on the raw value *)
    unfold lr_raw, val. cbn [B2R]. set (a := if 0 <=? e then _ else _).
    assert (A : (Rabs (IZR a - F2R (Float radix2 (Zpos m) e)) <= / 2)%R).
    { unfold a, F2R. cbn [Fnum Fexp]. destruct (Z.leb_spec 0 e) as [L|L].
      - rewrite Z.shiftl_mul_pow2, mult_IZR, pow_IZR by lia. rewrite Rminus_diag_eq by reflexivity. rewrite Rabs_R0. lra.
      - pose proof (half_up_spec (Zpos m) (- e) ltac:(lia)) as (P1 & P2). set (h := half_up _ _) in *. clearbody h.
        set (k := - e) in *. replace e with (- k) by lia. rewrite bpow_opp.
        assert (K : (0 < bpow radix2 k)%R) by apply bpow_gt_0.
        assert (K2 : bpow radix2 k = (2 * bpow radix2 (k - 1))%R) by (replace k with (1 + (k - 1)) at 1 by lia; rewrite bpow_plus; f_equal; cbn; lra).
        apply IZR_le in P1. apply IZR_lt in P2. rewrite plus_IZR, mult_IZR, !pow_IZR in P1 by lia.
        rewrite plus_IZR, plus_IZR, mult_IZR, !pow_IZR in P2 by lia.
        set (b := bpow radix2 k) in *. set (b1 := bpow radix2 (k - 1)) in *.
        replace (IZR h - IZR (Z.pos m) * / b)%R with ((b * IZR h - IZR (Z.pos m)) * / b)%R by (field; lra).
        rewrite Rabs_mult, (Rabs_pos_eq (/ b)) by (left; apply Rinv_0_lt_compat; exact K).
        assert (Q : (Rabs (b * IZR h - IZR (Z.pos m)) <= b1)%R) by (apply Rabs_le; lra).
        apply Rle_trans with (b1 * / b)%R; [apply Rmult_le_compat_r; [left; apply Rinv_0_lt_compat; exact K|exact Q]|].
        rewrite K2. right. field. lra. }
    destruct s; [|exact A]. change (cond_Zopp true (Z.pos m)) with (- Z.pos m).
    replace (F2R (Float radix2 (- Z.pos m) e)) with (- F2R (Float radix2 (Z.pos m) e))%R by (rewrite <- F2R_Zopp; reflexivity).
    rewrite opp_IZR. replace (- IZR a - - F2R (Float radix2 (Z.pos m) e))%R with (- (IZR a - F2R (Float radix2 (Z.pos m) e)))%R by ring.
    rewrite Rabs_Ropp. exact A.
Qed.
Lemma dlround_some x : fin x -> (Rabs (val x) <= bpow radix2 62)%R -> exists n, dlround x = Some n /\ Z.abs n <= 2 ^ 62 + 1.
Proof.
  intros F H. pose proof (lr_raw_near x F) as N. rewrite dlround_raw by exact F.
  assert (A : Z.abs (lr_raw x) <= 2 ^ 62 + 1).
  { apply le_IZR. rewrite abs_IZR, plus_IZR, pow_IZR by lia.
    replace (IZR (lr_raw x)) with ((IZR (lr_raw x) - val x) + val x)%R by ring.
    eapply Rle_trans; [apply Rabs_triang|]. lra. }
  exists (lr_raw x). split; [|exact A]. change (2 ^ 62) with 4611686018427387904 in A.
  replace (_ && _) with true by lia. reflexivity.
Qed.
Lemma dlround_int x z : fin x -> val x = IZR z -> in_s64 z -> dlround x = Some z.
Proof.
  intros F V H. pose proof (lr_raw_near x F) as N. rewrite V, <- minus_IZR, <- abs_IZR in N.
  assert (lr_raw x = z).
  { assert (Z.abs (lr_raw x - z) < 1); [|lia]. apply lt_IZR. lra. }
  rewrite dlround_raw, H0 by exact F. unfold in_s64 in H. replace (_ && _) with true by lia. reflexivity.
Qed.
(** ---- truncation ---- *)
Lemma dtrunc_bound x : fin x -> (Rabs (val x) <= bpow radix2 62)%R -> exists n, dtrunc x = Some n /\ (Rabs (IZR n) <= Rabs (val x))%R /\ (Rabs (IZR n - val x) < 1)%R.
Proof.
  intros F H. unfold dtrunc. destruct x as [s|s| |s m e B]; try discriminate.
  - exists 0. split; [reflexivity|]. cbn. rewrite Rminus_0_r, Rabs_R0. lra.
  - unfold val in *. cbn [B2R] in *. set (a := if 0 <=? e then _ else _).
    set (f := F2R (Float radix2 (Zpos m) e)).
    assert (FP : (0 < f)%R) by (apply F2R_gt_0; reflexivity).
    assert (VF : Rabs (F2R (Float radix2 (cond_Zopp s (Z.pos m)) e)) = f).
    { unfold f. rewrite <- F2R_Zabs. destruct s; reflexivity. }
    assert (A : (0 <= IZR a <= f)%R /\ (f - IZR a < 1)%R).
    { unfold a, f, F2R. cbn [Fnum Fexp]. destruct (Z.leb_spec 0 e) as [L|L].
      - rewrite Z.shiftl_mul_pow2, mult_IZR, pow_IZR by lia. assert (0 <= IZR (Z.pos m) * bpow radix2 e)%R by (apply Rmult_le_pos; [apply IZR_le; lia|apply bpow_ge_0]). lra.
      - set (k := - e) in *. replace e with (- k) by lia. rewrite bpow_opp, Z.shiftr_div_pow2 by lia.
        assert (K : (0 < bpow radix2 k)%R) by apply bpow_gt_0.
        assert (K0 : 0 < 2 ^ k) by (apply Z.pow_pos_nonneg; lia).
        pose proof (Z.mul_div_le (Z.pos m) (2 ^ k) K0) as P1. pose proof (Z.mul_succ_div_gt (Z.pos m) (2 ^ k) K0) as P2.
        pose proof (Z.div_pos (Z.pos m) (2 ^ k) ltac:(lia) K0) as P3.
        set (h := Z.pos m / 2 ^ k) in *. clearbody h. rewrite <- Z.add_1_r in P2.
        apply IZR_le in P1. apply IZR_lt in P2. apply IZR_le in P3. rewrite mult_IZR, pow_IZR in P1 by lia. rewrite mult_IZR, plus_IZR, pow_IZR in P2 by lia.
        set (b := bpow radix2 k) in *.
        assert (E : IZR (Z.pos m) = (IZR (Z.pos m) * / b * b)%R) by (field; lra). set (y := (IZR (Z.pos m) * / b)%R) in *. rewrite E in P1, P2.
        split; [split; [exact P3|]|].
        + apply Rmult_le_reg_r with b; lra.
        + apply Rmult_lt_reg_r with b; [exact K|]. lra. }
    rewrite VF in H.
    assert (AZ : 0 <= a <= 2 ^ 62) by (split; apply le_IZR; [apply A|rewrite pow_IZR by lia; lra]).
    change (2 ^ 62) with 4611686018427387904 in AZ. exists (if s then - a else a). split.
    + destruct s; replace (_ && _) with true by lia; reflexivity.
    + rewrite VF. destruct s.
      * change (cond_Zopp true (Z.pos m)) with (- Z.pos m).
        replace (F2R (Float radix2 (- Z.pos m) e)) with (- f)%R by (unfold f; rewrite <- F2R_Zopp; reflexivity).
        rewrite opp_IZR, Rabs_Ropp, (Rabs_pos_eq (IZR a)) by lra. split; [lra|].
        replace (- IZR a - - f)%R with (f - IZR a)%R by ring. rewrite Rabs_pos_eq; lra.
      * change (cond_Zopp false (Z.pos m)) with (Z.pos m). fold f. rewrite (Rabs_pos_eq (IZR a)) by lra. split; [lra|].
        rewrite Rabs_minus_sym, Rabs_pos_eq; lra.
Qed.
Lemma dtrunc_int x z : fin x -> val x = IZR z -> Z.abs z <= 2 ^ 62 -> dtrunc x = Some z.
Proof.
  intros F V H. destruct (dtrunc_bound x F) as (n & E & _ & N).
  - rewrite V, <- abs_IZR, <- pow_IZR by lia. apply IZR_le, H.
  - rewrite E. f_equal. rewrite V, <- minus_IZR, <- abs_IZR in N. apply (lt_IZR (Z.abs (n - z)) 1) in N. lia.
Qed.

(** ---- scale factors ---- *)
Lemma b53 : bpow radix2 (-53) = (/ 9007199254740992)%R. Proof. reflexivity. Qed.
Lemma eta_small : (0 <= bpow radix2 (-1075) <= / 1237940039285380274899124224)%R.
Proof.
  split; [apply bpow_ge_0|]. change (/ 1237940039285380274899124224)%R with (bpow radix2 (-90)). apply bpow_le. lia.
Qed.
Lemma parse_value s : in_s16 s ->
  fin (parse_scalar s) /\
  val (parse_scalar s) = (if s =? 0 then 1 else if 0 <? s then IZR s else rn (1 / IZR (- s)))%R /\
  (/ 40000 <= val (parse_scalar s) <= 40000)%R.
Proof.
  intros H. unfold in_s16 in H. unfold parse_scalar. destruct (Z.eqb_spec s 0) as [->|N].
  - cbn [Z.ltb Z.compare]. destruct (d_of_Z_exact 1 ltac:(cbn; lia)) as (V & F). rewrite V. split; [exact F|]. split; [reflexivity|]. lra.
  - destruct (Z.ltb_spec 0 s) as [P|P].
    + destruct (d_of_Z_exact s ltac:(change (2 ^ 53) with 9007199254740992; lia)) as (V & F). rewrite V. split; [exact F|]. split; [reflexivity|].
      assert (1 <= IZR s)%R by (apply IZR_le; lia). assert (IZR s <= 40000)%R by (apply IZR_le; lia). lra.
    + destruct (d_of_Z_exact (- s) ltac:(change (2 ^ 53) with 9007199254740992; lia)) as (V & F).
      destruct (d_of_Z_exact 1 ltac:(cbn; lia)) as (V1 & F1).
      assert (B1 : (1 <= IZR (- s))%R) by (apply IZR_le; lia). assert (B2 : (IZR (- s) <= 32768)%R) by (apply IZR_le; lia).
      assert (Q : (/ 32768 <= 1 / IZR (- s) <= 1)%R).
      { unfold Rdiv. rewrite Rmult_1_l. split; [apply Rinv_le; lra|]. rewrite <- Rinv_1. apply Rinv_le; lra. }
      destruct (rn_error (1 / IZR (- s))) as (eps & eta & E1 & E2 & E3). rewrite b53 in E1. pose proof eta_small as E0.
      assert (RB : (/ 40000 <= rn (1 / IZR (- s)) <= 2)%R).
      { rewrite E3. apply Rabs_le_inv in E1. apply Rabs_le_inv in E2. set (q := (1 / IZR (- s))%R) in *.
        assert (- / 9007199254740992 <= q * eps <= / 9007199254740992)%R.
        { split; [replace (- / 9007199254740992)%R with (1 * (- / 9007199254740992))%R by ring|replace (/ 9007199254740992)%R with (1 * / 9007199254740992)%R by ring].
          - apply Rle_trans with (q * - / 9007199254740992)%R; [|apply Rmult_le_compat_l; lra]. lra.
          - apply Rle_trans with (q * / 9007199254740992)%R; [apply Rmult_le_compat_l; lra|]. lra. }
        lra. }
      destruct (ddiv_spec (d_of_Z 1) (d_of_Z (- s))) as (DV & DF).
      * rewrite V. lra.
      * rewrite V, V1. rewrite Rabs_pos_eq by lra. apply Rle_lt_trans with (bpow radix2 1); [cbn; lra|apply bpow_lt; lia].
      * unfold fin. rewrite DF. split; [exact F1|]. rewrite DV, V, V1. split; [reflexivity|]. lra.
Qed.

(** The stored integer times the scale is close to the coordinate. *)
Lemma scaled_round_trip v s n : fin v -> in_s16 s -> dlround (ddiv v (parse_scalar s)) = Some n -> in_s32 n ->
  let g := val (parse_scalar s) in
  let out := dmul (parse_scalar s) (d_of_Z n) in
  fin out /\ (Rabs (val out - val v) <= g / 2 + / 2251799813685248 * (Rabs (val v) + g))%R.
Proof.
  intros Fv Hs H Hn g out. destruct (parse_value s Hs) as (Fg & _ & Gb). fold g in Gb.
  destruct (dlround_near _ _ H) as (Fq & Nq). assert (G0 : g <> 0%R) by lra.
  pose proof (ddiv_finite_spec v (parse_scalar s) G0 Fq) as Vq. rewrite Vq in Nq. fold g in Nq.
  unfold in_s32 in Hn. destruct (d_of_Z_exact n ltac:(change (2 ^ 53) with 9007199254740992; lia)) as (Vn & Fn).
  destruct (rn_error (val v / g)) as (e1 & h1 & A1 & A2 & A3). destruct (rn_error (g * IZR n)) as (e2 & h2 & B1 & B2 & B3).
  rewrite b53 in A1, B1. pose proof eta_small as E0.
  assert (Hn' : (Rabs (IZR n) <= 2147483648)%R) by (rewrite <- abs_IZR; apply IZR_le; lia).
  assert (OB : (Rabs (g * IZR n) <= 85899345920000)%R).
  { rewrite Rabs_mult, (Rabs_pos_eq g) by lra. replace 85899345920000%R with (40000 * 2147483648)%R by ring.
    apply Rmult_le_compat; [lra|apply Rabs_pos|lra|exact Hn']. }
  assert (RB : (Rabs (rn (g * IZR n)) <= 85899345920000 * 3)%R).
  { rewrite B3. eapply Rle_trans; [apply Rabs_triang|]. rewrite Rabs_mult.
    assert (Rabs (1 + e2) <= 2)%R by (eapply Rle_trans; [apply Rabs_triang|rewrite Rabs_R1; lra]).
    assert (Rabs (g * IZR n) * Rabs (1 + e2) <= 85899345920000 * 2)%R by (apply Rmult_le_compat; try apply Rabs_pos; assumption). lra. }
  destruct (dmul_spec (parse_scalar s) (d_of_Z n)) as (VO & FO).
  { rewrite Vn. fold g. eapply Rle_lt_trans; [exact RB|]. apply Rle_lt_trans with (bpow radix2 60); [cbn; lra|apply bpow_lt; lia]. }
  split; [unfold fin, out; rewrite FO, Fg, Fn; reflexivity|]. unfold out. rewrite VO, Vn. fold g. rewrite B3.
  set (V := val v) in *. set (t := rn (V / g)) in *.
  assert (D : (g * IZR n - V = g * (IZR n - t) + V * e1 + g * h1)%R) by (rewrite A3; field; exact G0).
  assert (D1 : (Rabs (g * (IZR n - t)) <= g / 2)%R) by (rewrite Rabs_mult, (Rabs_pos_eq g) by lra; unfold Rdiv; apply Rmult_le_compat_l; lra).
  assert (D2 : (Rabs (V * e1) <= / 9007199254740992 * Rabs V)%R) by (rewrite Rabs_mult, Rmult_comm; apply Rmult_le_compat_r; [apply Rabs_pos|exact A1]).
  assert (D3 : (Rabs (g * h1) <= / 9007199254740992 * / 100 * g)%R).
  { rewrite Rabs_mult, (Rabs_pos_eq g) by lra. rewrite Rmult_comm. apply Rmult_le_compat_r; lra. }
  assert (D4 : (Rabs (g * IZR n) <= 2 * Rabs V + g)%R).
  { replace (g * IZR n)%R with (V + (g * (IZR n - t) + V * e1 + g * h1))%R by lra.
    eapply Rle_trans; [apply Rabs_triang|]. eapply Rle_trans; [apply Rplus_le_compat_l; eapply Rle_trans; [apply Rabs_triang|apply Rplus_le_compat_r, Rabs_triang]|].
    assert (0 <= Rabs V)%R by apply Rabs_pos. lra. }
  assert (D5 : (Rabs (g * IZR n * e2) <= / 9007199254740992 * (2 * Rabs V + g))%R).
  { rewrite Rabs_mult, Rmult_comm. apply Rmult_le_compat; try apply Rabs_pos; assumption. }
  assert (D6 : (Rabs h2 <= / 9007199254740992 * / 100 * g)%R).
  { eapply Rle_trans; [exact B2|]. assert (/ 9007199254740992 * / 100 * / 40000 <= / 9007199254740992 * / 100 * g)%R by (apply Rmult_le_compat_l; lra). lra. }
  replace (g * IZR n * (1 + e2) + h2 - V)%R with ((g * (IZR n - t) + V * e1 + g * h1) + g * IZR n * e2 + h2)%R by lra.
  eapply Rle_trans; [apply Rabs_triang|]. eapply Rle_trans; [apply Rplus_le_compat_r; eapply Rle_trans; [apply Rabs_triang|apply Rplus_le_compat_r; eapply Rle_trans; [apply Rabs_triang|apply Rplus_le_compat_r, Rabs_triang]]|].
  assert (0 <= Rabs V)%R by apply Rabs_pos. lra.
Qed.

(** ---- integral coordinates ---- *)
Lemma D_ext (x y : D) z : fin x -> fin y -> val x = IZR z -> val y = IZR z -> z <> 0 -> x = y.
Proof.
  intros Fx Fy Vx Vy N. assert (NZ : (IZR z <> 0)%R) by (apply not_0_IZR; exact N).
  apply B2R_inj.
  - destruct x; try discriminate; [cbn in Vx; congruence|reflexivity].
  - destruct y; try discriminate; [cbn in Vy; congruence|reflexivity].
  - unfold val in *. congruence.
Qed.
Lemma parse1 : parse_scalar 1 = d_of_Z 1. Proof. reflexivity. Qed.
Lemma find_scalar_int z : in_s32 z -> find_scalar (d_of_Z z) = Some 1.
Proof.
  intros H. unfold in_s32 in H. unfold find_scalar. assert (P53 : 2 ^ 53 = 9007199254740992) by reflexivity.
  destruct (d_of_Z_exact z ltac:(lia)) as (V & F). destruct (d_of_Z_exact 10000 ltac:(lia)) as (V4 & F4).
  rewrite (dtrunc_int _ z F V) by (change (2 ^ 62) with 4611686018427387904; lia). cbn [obind].
  assert (S : s32 z = z) by (unfold s32, two32; rewrite Z.mod_small; lia).
  rewrite ?S, Z.eqb_refl. cbn [negb].
  assert (E : rn (val (d_of_Z z) * val (d_of_Z 10000)) = IZR (z * 10000)).
  { rewrite V, V4, <- mult_IZR. apply round_generic; [apply valid_rnd_N|apply int_format; lia]. }
  destruct (dmul_spec (d_of_Z z) (d_of_Z 10000)) as (VM & FM); [rewrite E; apply int_small; lia|].
  rewrite (dlround_int _ (z * 10000)); [|unfold fin; rewrite FM, F, F4; reflexivity|rewrite VM; exact E|unfold in_s64; lia].
  cbn [obind]. rewrite Z.sub_diag. reflexivity.
Qed.
Lemma int_round_trip z : in_s32 z ->
  dlround (ddiv (d_of_Z z) (parse_scalar 1)) = Some z /\ dmul (parse_scalar 1) (d_of_Z z) = d_of_Z z.
Proof.
  intros H. unfold in_s32 in H. assert (P53 : 2 ^ 53 = 9007199254740992) by reflexivity.
  destruct (d_of_Z_exact z ltac:(lia)) as (V & F). destruct (d_of_Z_exact 1 ltac:(lia)) as (V1 & F1). rewrite parse1.
  assert (E : rn (IZR z) = IZR z) by (apply round_generic; [apply valid_rnd_N|apply int_format; lia]).
  split.
  - destruct (ddiv_spec (d_of_Z z) (d_of_Z 1)) as (VD & FD).
    + rewrite V1. lra.
    + rewrite V, V1. unfold Rdiv. rewrite Rinv_1, Rmult_1_r, E. apply int_small; lia.
    + apply dlround_int; [unfold fin; rewrite FD; exact F| |unfold in_s64; lia].
      rewrite VD, V, V1. unfold Rdiv. rewrite Rinv_1, Rmult_1_r. exact E.
  - destruct (Z.eq_dec z 0) as [->|N]; [vm_compute; reflexivity|].
    destruct (dmul_spec (d_of_Z 1) (d_of_Z z)) as (VM & FM).
    + rewrite V, V1, Rmult_1_l, E. apply int_small; lia.
    + apply (D_ext _ _ z); [unfold fin; rewrite FM, F, F1; reflexivity|exact F| |exact V|exact N].
      rewrite VM, V, V1, Rmult_1_l. exact E.
Qed.

(** ---- the scale search ---- *)
Lemma s16_in z : in_s16 (s16 z).
Proof. unfold in_s16, s16. pose proof (Z.mod_pos_bound (z + 32768) 65536 ltac:(lia)). lia. Qed.
Lemma small_scale_range v ip d : forall l s, small_scale v ip d l = Some s -> in_s16 s.
Proof.
  induction l as [|i l IH]; intros s H; [injection H as <-; unfold in_s16; lia|]. cbn [small_scale] in H.
  destruct (Z.rem d (i * 10) =? 0); [apply IH, H|]. cbv zeta in H. destruct (dlround _); [|discriminate]. cbn [obind] in H.
  destruct (_ =? ip); [injection H as <-; apply s16_in|apply IH, H].
Qed.
Lemma find_scalar_range v s : find_scalar v = Some s -> in_s16 s.
Proof.
  unfold find_scalar. destruct (dtrunc v) as [ip|]; [|discriminate]. cbn [obind]. destruct (negb _).
  - intros H; injection H as <-. apply s16_in.
  - destruct (dlround _); [|discriminate]. cbn [obind]. cbv zeta. destruct (_ =? 0); [intros H; injection H as <-; unfold in_s16; lia|].
    apply small_scale_range.
Qed.
Lemma combine_range a b : in_s16 a -> in_s16 b -> in_s16 (combine a b).
Proof. unfold combine, in_s16. destruct (_ || _); lia. Qed.
Lemma combine_fold_range : forall cs a, in_s16 a -> Forall in_s16 cs -> in_s16 (fold_left combine cs a).
Proof. induction cs as [|c cs IH]; intros a Ha H; [exact Ha|]. inversion H; subst. cbn. apply IH; [apply combine_range|]; assumption. Qed.
(** moderate coordinates never hit undefined behaviour *)
Lemma div_some v s : fin v -> (Rabs (val v) <= bpow radix2 40)%R -> in_s16 s -> exists q, dlround (ddiv v (parse_scalar s)) = Some q.
Proof.
  intros Fv Hv Hs. destruct (parse_value s Hs) as (Fg & _ & Gb). set (g := val (parse_scalar s)) in *.
  assert (Q : (Rabs (val v / g) <= bpow radix2 40 * 40000)%R).
  { unfold Rdiv. rewrite Rabs_mult, (Rabs_pos_eq (/ g)) by (left; apply Rinv_0_lt_compat; lra).
    apply Rmult_le_compat; [apply Rabs_pos|left; apply Rinv_0_lt_compat; lra|exact Hv|].
    rewrite <- (Rinv_inv 40000). apply Rinv_le; lra. }
  destruct (rn_error (val v / g)) as (eps & eta & E1 & E2 & E3). rewrite b53 in E1. pose proof eta_small as E0.
  assert (R : (Rabs (rn (val v / g)) <= bpow radix2 62)%R).
  { rewrite E3. eapply Rle_trans; [apply Rabs_triang|]. rewrite Rabs_mult.
    assert (Rabs (1 + eps) <= 2)%R by (eapply Rle_trans; [apply Rabs_triang|rewrite Rabs_R1; lra]).
    assert (M : (Rabs (val v / g) * Rabs (1 + eps) <= bpow radix2 40 * 40000 * 2)%R) by (apply Rmult_le_compat; try apply Rabs_pos; assumption).
    cbn in *. lra. }
  destruct (ddiv_spec v (parse_scalar s)) as (VD & FD); [fold g; lra|fold g; eapply Rle_lt_trans; [exact R|apply bpow_lt; lia]|].
  destruct (dlround_some (ddiv v (parse_scalar s))) as (n & E & _); [unfold fin; rewrite FD; exact Fv|rewrite VD; fold g; exact R|eauto].
Qed.
Lemma find_scalar_some v : fin v -> (Rabs (val v) <= bpow radix2 40)%R -> exists s, find_scalar v = Some s.
Proof.
  intros Fv Hv. unfold find_scalar.
  destruct (dtrunc_bound v Fv) as (ip & -> & _); [eapply Rle_trans; [exact Hv|apply bpow_le; lia]|]. cbn [obind].
  destruct (negb _); [eauto|].
  destruct (d_of_Z_exact 10000 ltac:(cbn; lia)) as (V4 & F4).
  destruct (rn_error (val v * 10000)) as (eps & eta & E1 & E2 & E3). rewrite b53 in E1. pose proof eta_small as E0.
  assert (R : (Rabs (rn (val v * 10000)) <= bpow radix2 62)%R).
  { rewrite E3. eapply Rle_trans; [apply Rabs_triang|]. rewrite !Rabs_mult.
    assert (Rabs (1 + eps) <= 2)%R by (eapply Rle_trans; [apply Rabs_triang|rewrite Rabs_R1; lra]).
    rewrite (Rabs_pos_eq 10000) by lra.
    assert (M : (Rabs (val v) * 10000 * Rabs (1 + eps) <= bpow radix2 40 * 10000 * 2)%R).
    { apply Rmult_le_compat; try apply Rabs_pos; [apply Rmult_le_pos; [apply Rabs_pos|lra]|apply Rmult_le_compat_r; [lra|exact Hv]|assumption]. }
    cbn in *. lra. }
  destruct (dmul_spec v (d_of_Z 10000)) as (VM & FM); [rewrite V4; eapply Rle_lt_trans; [exact R|apply bpow_lt; lia]|].
  destruct (dlround_some (dmul v (d_of_Z 10000))) as (lr & -> & _); [unfold fin; rewrite FM, Fv, F4; reflexivity|rewrite VM, V4; exact R|].
  cbn [obind]. cbv zeta. destruct (_ =? 0); [eauto|].
  generalize [1; 10; 100; 1000] as l. induction l as [|i l IH]; [cbn; eauto|]. cbn [small_scale]. destruct (Z.rem _ _ =? 0); [exact IH|].
  destruct (div_some v (s16 (Z.quot (-10000) i)) Fv Hv (s16_in _)) as (q & E). cbv zeta. rewrite E. cbn [obind]. destruct (_ =? ip); [eauto|exact IH].
Qed.
