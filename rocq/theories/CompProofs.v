(** The orders on traces compare lists of keys. *)
From Coq Require Import Reals Lra Lia.
From Flocq Require Import Core IEEE754.BinarySingleNaN.
From Verif Require Import Base DoubleModel ScalarProofs SortModel SortSpec.
Open Scope Z_scope.

Definition num (x : D) : Prop := is_nan x = false.
Lemma big_pos : (0 < bpow radix2 1024)%R. Proof. apply bpow_gt_0. Qed.
Lemma fin_bound (x : D) : (- bpow radix2 1024 < B2R x < bpow radix2 1024)%R.
Proof. pose proof (abs_B2R_lt_emax prec64 emax64 x) as H. apply Rabs_lt_inv in H. exact H. Qed.
Lemma ext_fin (x : D) : fin x -> ext x = B2R x.
Proof. destruct x; intros H; try reflexivity; discriminate H. Qed.
Lemma ltb_fin_inf x s : fin x -> dltb x (B754_infinity s) = negb s.
Proof. destruct x as [[]|[]| |[]]; intros F; try discriminate F; destruct s; reflexivity. Qed.
Lemma ltb_inf_fin x s : fin x -> dltb (B754_infinity s) x = s.
Proof. destruct x as [[]|[]| |[]]; intros F; try discriminate F; destruct s; reflexivity. Qed.
Lemma eqb_fin_inf x s : fin x -> deqb x (B754_infinity s) = false.
Proof. destruct x as [[]|[]| |[]]; intros F; try discriminate F; destruct s; reflexivity. Qed.
Lemma eqb_inf_fin x s : fin x -> deqb (B754_infinity s) x = false.
Proof. destruct x as [[]|[]| |[]]; intros F; try discriminate F; destruct s; reflexivity. Qed.
Lemma num_cases x : num x -> fin x \/ exists s, x = B754_infinity s.
Proof. destruct x; intros H; [left; reflexivity|right; eauto|discriminate H|left; reflexivity]. Qed.
Lemma dltb_spec x y : num x -> num y -> dltb x y = true <-> (ext x < ext y)%R.
Proof.
  intros NX NY. pose proof big_pos as BP. pose proof (fin_bound x) as BX. pose proof (fin_bound y) as BY.
  destruct (num_cases x NX) as [FX|(s & ->)], (num_cases y NY) as [FY|(s' & ->)].
  - rewrite !ext_fin by assumption. unfold dltb. rewrite (Bltb_correct prec64 emax64 x y FX FY). split; [intros E|intros E; apply Rlt_bool_true, E].
    revert E. destruct (Rlt_bool_spec (B2R x) (B2R y)); [auto|discriminate].
  - rewrite (ltb_fin_inf x s' FX), (ext_fin x FX). unfold ext. clear BY. revert BP BX. generalize (bpow radix2 1024) (B2R x). intros b v. destruct s'; cbn [negb]; (split; [intros; try discriminate; lra|intros; try reflexivity; lra]).
  - rewrite (ltb_inf_fin y s FY), (ext_fin y FY). unfold ext. clear BX. revert BP BY. generalize (bpow radix2 1024) (B2R y). intros b v. destruct s; (split; [intros; try discriminate; lra|intros; try reflexivity; lra]).
  - unfold ext. clear BX BY. revert BP. generalize (bpow radix2 1024). intros b. destruct s, s'; cbn [dltb Bltb B2SF SpecFloat.SFltb SpecFloat.SFcompare]; (split; [intros; try discriminate; lra|intros; try reflexivity; lra]).
Qed.
Lemma deqb_spec x y : num x -> num y -> deqb x y = true <-> ext x = ext y.
Proof.
  intros NX NY. pose proof big_pos as BP. pose proof (fin_bound x) as BX. pose proof (fin_bound y) as BY.
  destruct (num_cases x NX) as [FX|(s & ->)], (num_cases y NY) as [FY|(s' & ->)].
  - rewrite !ext_fin by assumption. unfold deqb. rewrite (Beqb_correct prec64 emax64 x y FX FY). split; [intros E|intros E; apply Req_bool_true, E].
    revert E. destruct (Req_bool_spec (B2R x) (B2R y)); [auto|discriminate].
  - rewrite (eqb_fin_inf x s' FX), (ext_fin x FX). unfold ext. clear BY. revert BP BX. generalize (bpow radix2 1024) (B2R x). intros b v. destruct s'; (split; [intros; try discriminate; lra|intros; try reflexivity; lra]).
  - rewrite (eqb_inf_fin y s FY), (ext_fin y FY). unfold ext. clear BX. revert BP BY. generalize (bpow radix2 1024) (B2R y). intros b v. destruct s; (split; [intros; try discriminate; lra|intros; try reflexivity; lra]).
  - unfold ext. clear BX BY. revert BP. generalize (bpow radix2 1024). intros b. destruct s, s'; (split; [intros Q; try (exfalso; discriminate Q); lra|intros; try reflexivity; lra]).
Qed.

(** The squared offset of finite coordinates is a number. *)
Lemma sub_num a b : fin a -> fin b -> num (dsub a b).
Proof.
  intros A B. unfold dsub, num. pose proof (Bminus_correct prec64 emax64 Hprec64 Hmax64 mode_NE a b A B) as H.
  destruct (Rlt_bool _ _) in H.
  - destruct H as (_ & F & _). destruct (Bminus mode_NE a b); try reflexivity. discriminate F.
  - destruct H as (H & _). destruct (Bminus mode_NE a b) as [| | |]; try reflexivity. cbn in H. destruct (Bsign a); discriminate H.
Qed.
Lemma sqr_num a : num a -> num (dmul a a) /\ Bsign (dmul a a) = false.
Proof.
  intros N. destruct a as [s|s| |s m e B]; try discriminate N; [destruct s; split; reflexivity|destruct s; split; reflexivity|].
  pose proof (Bmult_correct prec64 emax64 Hprec64 Hmax64 mode_NE (B754_finite s m e B) (B754_finite s m e B)) as H. unfold dmul, num. destruct (Rlt_bool _ _) in H.
  - destruct H as (_ & F & S). cbn [is_finite andb] in F. revert F S. generalize (@Bmult prec64 emax64 Hprec64 Hmax64 mode_NE (B754_finite s m e B) (B754_finite s m e B)). intros v F S.
    assert (N' : is_nan v = false) by (destruct v; try reflexivity; discriminate F). split; [exact N'|]. rewrite (S N'). apply Bool.xorb_nilpotent.
  - revert H. generalize (@Bmult prec64 emax64 Hprec64 Hmax64 mode_NE (B754_finite s m e B) (B754_finite s m e B)). intros v H. destruct v as [| | |]; cbn in H; rewrite Bool.xorb_nilpotent in H; try discriminate H. split; [reflexivity|]. injection H as ->. reflexivity.
Qed.
Lemma add_num a b : num a -> num b -> Bsign a = false -> Bsign b = false -> num (dadd a b).
Proof.
  intros NA NB SA SB. destruct (is_finite a) eqn:FA, (is_finite b) eqn:FB.
  - unfold dadd, num. pose proof (Bplus_correct prec64 emax64 Hprec64 Hmax64 mode_NE a b FA FB) as H. destruct (Rlt_bool _ _) in H.
    + destruct H as (_ & F & _). destruct (Bplus mode_NE a b); try reflexivity. discriminate F.
    + destruct H as (H & _). destruct (Bplus mode_NE a b); try reflexivity. cbn in H. destruct (Bsign a); discriminate H.
  - destruct b as [|s| |]; try discriminate FB; try discriminate NB. destruct a as [| | |]; try discriminate FA; reflexivity.
  - destruct a as [|s| |]; try discriminate FA; try discriminate NA. destruct b as [| | |]; try discriminate FB; reflexivity.
  - destruct a as [|s| |]; try discriminate FA; try discriminate NA. destruct b as [|s'| |]; try discriminate FB; try discriminate NB. cbn in SA, SB. subst. reflexivity.
Qed.
Lemma off_num a b c d : fin a -> fin b -> fin c -> fin d -> num (off a b c d).
Proof.
  intros A B C D. unfold off. destruct (sqr_num (dsub a c) (sub_num a c A C)) as (X1 & X2). destruct (sqr_num (dsub b d) (sub_num b d B D)) as (Y1 & Y2). apply add_num; assumption.
Qed.
Lemma fin_num x : fin x -> num x.
Proof. destruct x; intros H; try reflexivity; discriminate H. Qed.
Lemma of_Z_num z : num (d_of_Z z).
Proof.
  unfold num, d_of_Z. pose proof (binary_normalize_correct prec64 emax64 Hprec64 Hmax64 mode_NE z 0 false) as H. cbv zeta in H. destruct (Rlt_bool _ _) in H.
  - destruct H as (_ & F & _). destruct (binary_normalize _ _ _ _ _ _ _ _); try reflexivity. discriminate F.
  - destruct (binary_normalize _ _ _ _ _ _ _ _); try reflexivity. cbn in H. destruct (Rlt_bool _ _) in H; discriminate H.
Qed.
Lemma ltb_IZR a b : (a <? b) = true <-> (IZR a < IZR b)%R.
Proof. rewrite Z.ltb_lt. split; [apply IZR_lt|apply lt_IZR]. Qed.
Lemma eqb_IZR a b : (a =? b) = true <-> IZR a = IZR b.
Proof. rewrite Z.eqb_eq. split; [intros ->; reflexivity|apply eq_IZR]. Qed.

(** One step of the comparison. *)
Lemma step (lt eq : bool) (x y : R) (l m : list R) (c : bool) :
  (lt = true <-> (x < y)%R) -> (eq = true <-> x = y) -> (c = true <-> lex l m) ->
  (if lt then true else if eq then c else false) = true <-> lex (x :: l) (y :: m).
Proof.
  intros L E C. cbn [lex]. destruct lt; [split; [intros _; left; apply L; reflexivity|reflexivity]|]. destruct eq.
  - rewrite C. split; [intros H; right; split; [apply E; reflexivity|exact H]|]. intros [H|(_ & H)]; [apply L in H; discriminate|exact H].
  - split; [discriminate|]. intros [H|(H & _)]; [apply L in H|apply E in H]; discriminate.
Qed.
Lemma last_step (lt : bool) (x y : R) : (lt = true <-> (x < y)%R) -> lt = true <-> lex [x] [y].
Proof. intros L. cbn [lex]. rewrite L. split; [auto|]. intros [H|(_ & [])]. exact H. Qed.
Lemma orb_if a b c : a || (b && c) = if a then true else if b then c else false.
Proof. destruct a, b; reflexivity. Qed.

Lemma lex_irrefl l : ~ lex l l.
Proof. induction l as [|x l IH]; [intros []|]. cbn. intros [H|(_ & H)]; [lra|auto]. Qed.
Lemma lex_trans : forall a b c, lex a b -> lex b c -> lex a c.
Proof.
  induction a as [|x a IH]; intros [|y b] [|z c] H1 H2; cbn in *; try contradiction.
  destruct H1 as [H1|(-> & H1)], H2 as [H2|(-> & H2)]; [left; lra|left; exact H1|left; exact H2|right; split; [reflexivity|eapply IH; eassumption]].
Qed.
Lemma lex_connex : forall a b, length a = length b -> ~ lex a b -> ~ lex b a -> a = b.
Proof.
  induction a as [|x a IH]; intros [|y b] L H1 H2; try discriminate; [reflexivity|]. cbn in *. destruct (Rtotal_order x y) as [H|[->|H]]; [tauto| |tauto].
  f_equal. apply IH; [lia| |]; intros H; [apply H1|apply H2]; auto.
Qed.
(** An order that compares lists of keys of which the last tells traces apart is total. *)
Lemma keys_total {A} (P : A -> Prop) (lt : A -> A -> bool) (keys : A -> list R) :
  (forall a b, P a -> P b -> lt a b = true <-> lex (keys a) (keys b)) -> (forall a b, P a -> P b -> length (keys a) = length (keys b)) ->
  (forall a b, P a -> P b -> keys a = keys b -> a = b) -> strict_total P lt.
Proof.
  intros K L I. split; [|split].
  - intros x X. destruct (lt x x) eqn:E; [|reflexivity]. apply K in E; [|assumption|assumption]. destruct (lex_irrefl _ E).
  - intros x y z X Y Z E1 E2. apply K in E1; [|assumption|assumption]. apply K in E2; [|assumption|assumption]. apply K; [assumption|assumption|]. exact (lex_trans _ _ _ E1 E2).
  - intros x y X Y E1 E2. apply I; [assumption|assumption|]. apply lex_connex; [apply L; assumption| |]; intros H; apply K in H; try assumption; congruence.
Qed.

(** ---- squared distances of whole coordinates are exact ---- *)
Definition whole (x : D) (z : Z) : Prop := fin x /\ val x = IZR z.
Lemma rn_int z : Z.abs z <= 2 ^ 53 -> rn (IZR z) = IZR z.
Proof. intros H. apply round_generic; [apply valid_rnd_N|apply int_format, H]. Qed.
Lemma dsub_whole a b x y : whole a x -> whole b y -> Z.abs (x - y) <= 2 ^ 53 -> whole (dsub a b) (x - y).
Proof.
  intros (FA & VA) (FB & VB) H. pose proof (Bminus_correct prec64 emax64 Hprec64 Hmax64 mode_NE a b FA FB) as C. unfold val in *. cbn [round_mode] in C.
  change (SpecFloat.fexp prec64 emax64) with fx in C. rewrite VA, VB, <- minus_IZR in C. change (Generic_fmt.round radix2 fx ZnearestE) with rn in C. rewrite (rn_int _ H) in C.
  rewrite Rlt_bool_true in C by (apply int_small, H). destruct C as (C1 & C2 & _). split; [exact C2|exact C1].
Qed.
Lemma dadd_whole a b x y : whole a x -> whole b y -> Z.abs (x + y) <= 2 ^ 53 -> whole (dadd a b) (x + y).
Proof.
  intros (FA & VA) (FB & VB) H. pose proof (Bplus_correct prec64 emax64 Hprec64 Hmax64 mode_NE a b FA FB) as C. unfold val in *. cbn [round_mode] in C.
  change (SpecFloat.fexp prec64 emax64) with fx in C. rewrite VA, VB, <- plus_IZR in C. change (Generic_fmt.round radix2 fx ZnearestE) with rn in C. rewrite (rn_int _ H) in C.
  rewrite Rlt_bool_true in C by (apply int_small, H). destruct C as (C1 & C2 & _). split; [exact C2|exact C1].
Qed.
Lemma dmul_whole a b x y : whole a x -> whole b y -> Z.abs (x * y) <= 2 ^ 53 -> whole (dmul a b) (x * y).
Proof.
  intros (FA & VA) (FB & VB) H. pose proof (Bmult_correct prec64 emax64 Hprec64 Hmax64 mode_NE a b) as C. unfold val in *. cbn [round_mode] in C.
  change (SpecFloat.fexp prec64 emax64) with fx in C. rewrite VA, VB, <- mult_IZR in C. change (Generic_fmt.round radix2 fx ZnearestE) with rn in C. rewrite (rn_int _ H) in C.
  rewrite Rlt_bool_true in C by (apply int_small, H). destruct C as (C1 & C2 & _). split; [|exact C1]. unfold fin in *. rewrite FA, FB in C2. exact C2.
Qed.
Lemma off_whole a b c d sx sy rx ry : whole a sx -> whole b sy -> whole c rx -> whole d ry ->
  Z.abs sx <= 2 ^ 24 -> Z.abs sy <= 2 ^ 24 -> Z.abs rx <= 2 ^ 24 -> Z.abs ry <= 2 ^ 24 ->
  whole (off a b c d) ((sx - rx) * (sx - rx) + (sy - ry) * (sy - ry)).
Proof.
  intros A B C D0 H1 H2 H3 H4. assert (SQ : forall u v, Z.abs u <= 2 ^ 24 -> Z.abs v <= 2 ^ 24 -> 0 <= (u - v) * (u - v) <= 2 ^ 50).
  { intros u v U V. rewrite <- (Z.abs_square (u - v)). assert (Q : 0 <= Z.abs (u - v) <= 2 ^ 25) by lia. split; [apply Z.mul_nonneg_nonneg; lia|].
    replace (2 ^ 50) with (2 ^ 25 * 2 ^ 25) by reflexivity. apply Z.mul_le_mono_nonneg; lia. }
  pose proof (SQ sx rx H1 H3). pose proof (SQ sy ry H2 H4). unfold off.
  assert (DX : whole (dsub a c) (sx - rx)) by (apply dsub_whole; [assumption|assumption|lia]).
  assert (DY : whole (dsub b d) (sy - ry)) by (apply dsub_whole; [assumption|assumption|lia]).
  assert (MX : whole (dmul (dsub a c) (dsub a c)) ((sx - rx) * (sx - rx))) by (apply dmul_whole; [exact DX|exact DX|lia]).
  assert (MY : whole (dmul (dsub b d) (dsub b d)) ((sy - ry) * (sy - ry))) by (apply dmul_whole; [exact DY|exact DY|lia]).
  apply dadd_whole; [exact MX|exact MY|lia].
Qed.
