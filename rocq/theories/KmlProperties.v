(** C99, C100: the coordinates segy2kml writes. *)
From Coq Require Import Reals Lra Lia.
From Flocq Require Import Core IEEE754.BinarySingleNaN Sterbenz.
From Verif Require Import Base DoubleModel ParamModel ScalarProofs KmlModel KmlSpec.
Import ListNotations.
Open Scope Z_scope.

(** ---- decimal digits ---- *)
Lemma num_app : forall b a, num_of (a ++ b) = num_of a * 10 ^ Z.of_nat (length b) + num_of b.
Proof.
  assert (G : forall b x, fold_left (fun a c => 10 * a + (c - 48)) b x = x * 10 ^ Z.of_nat (length b) + num_of b).
  { unfold num_of. induction b as [|c b IH]; intros x; [cbn; lia|]. cbn [fold_left length]. rewrite (IH (10 * x + (c - 48))), (IH (10 * 0 + (c - 48))). rewrite Nat2Z.inj_succ, Z.pow_succ_r by lia. ring. }
  intros b a. unfold num_of at 1. rewrite fold_left_app. apply G.
Qed.
Lemma digits_spec : forall fuel n, 0 <= n < 10 ^ Z.of_nat fuel -> num_of (digits fuel n) = n /\ Forall is_digit (digits fuel n).
Proof.
  induction fuel as [|fuel IH]; intros n H; [cbn in H; split; [cbn; lia|constructor]|].
  cbn [digits]. pose proof (Z.mod_pos_bound n 10 ltac:(lia)) as M. pose proof (Z.div_mod n 10 ltac:(lia)) as Dm.
  rewrite Nat2Z.inj_succ, Z.pow_succ_r in H by lia.
  assert (L : is_digit (48 + n mod 10)) by (unfold is_digit; lia).
  rewrite num_app. change (10 ^ Z.of_nat (length [48 + n mod 10])) with 10. replace (num_of [48 + n mod 10]) with (n mod 10) by (cbn [num_of fold_left]; unfold num_of; cbn [fold_left]; lia).
  destruct (Z.ltb_spec n 10) as [S|S].
  - split; [cbn; rewrite Z.mod_small by lia; lia|]. cbn [app]. constructor; [exact L|constructor].
  - destruct (IH (n / 10)) as (I1 & I2); [split; [apply Z.div_pos; lia|apply Z.div_lt_upper_bound; lia]|].
    rewrite I1. split; [lia|]. apply Forall_app. split; [exact I2|constructor; [exact L|constructor]].
Qed.
Lemma digits_length : forall k fuel n, (1 <= k <= fuel)%nat -> n < 10 ^ Z.of_nat k -> (k = 1%nat \/ 10 ^ (Z.of_nat k - 1) <= n) -> 0 <= n -> length (digits fuel n) = k.
Proof.
  induction k as [|k IH]; intros fuel n K U L N; [lia|]. destruct fuel as [|fuel]; [lia|]. cbn [digits]. rewrite app_length. cbn [length].
  rewrite Nat2Z.inj_succ, Z.pow_succ_r in U by lia.
  destruct (Z.ltb_spec n 10) as [S|S].
  - destruct L as [L|L]; [cbn; lia|]. destruct k as [|k]; [reflexivity|]. exfalso. replace (Z.of_nat (Datatypes.S (Datatypes.S k)) - 1) with (Z.succ (Z.of_nat k)) in L by lia. rewrite Z.pow_succ_r in L by lia. pose proof (Z.pow_pos_nonneg 10 (Z.of_nat k)). lia.
  - destruct k as [|k]; [change (10 ^ Z.of_nat 0) with 1 in U; lia|]. rewrite (IH fuel (n / 10)); [lia|lia|apply Z.div_lt_upper_bound; lia| |apply Z.div_pos; lia].
    destruct L as [L|L]; [lia|]. destruct k as [|k]; [left; reflexivity|right]. apply Z.div_le_lower_bound; [lia|].
    replace (Z.of_nat (Datatypes.S (Datatypes.S (Datatypes.S k))) - 1) with (Z.succ (Z.succ (Z.of_nat k))) in L by lia. replace (Z.of_nat (Datatypes.S (Datatypes.S k)) - 1) with (Z.succ (Z.of_nat k)) by lia. rewrite <- Z.pow_succ_r by lia. exact L.
Qed.
Lemma digits_nonempty fuel n : (0 < fuel)%nat -> digits fuel n <> [].
Proof. destruct fuel; [lia|]. intros _. cbn [digits]. intros E. apply app_eq_nil in E. destruct E. discriminate. Qed.

(** ---- floor and fraction ---- *)
Lemma dfloor_spec x : fin x -> (0 <= val x <= bpow radix2 52)%R -> exists t, dfloor x = Some t /\ (IZR t <= val x < IZR t + 1)%R /\ 0 <= t <= 2 ^ 52.
Proof.
  intros F H. destruct (dtrunc_bound x F) as (t & E & A & B). { rewrite Rabs_pos_eq by lra. eapply Rle_trans; [apply H|]. apply bpow_le. lia. }
  rewrite (Rabs_pos_eq (val x)) in A by lra. apply Rabs_lt_inv in B. pose proof (Rle_trans _ _ _ (Rle_abs (IZR t)) A) as TU.
  assert (T0 : 0 <= t). { assert (IZR (-1) < IZR t)%R as Q by lra. apply lt_IZR in Q. lia. }
  assert (T1 : t <= 2 ^ 52). { apply le_IZR. change (IZR (2 ^ 52)) with (bpow radix2 52). lra. }
  exists t. unfold dfloor. rewrite E. cbn [obind]. destruct (d_of_Z_exact t) as (V & Ft). { change (2 ^ 53) with (2 * 2 ^ 52). lia. }
  split; [|split; [lra|split; assumption]]. f_equal. unfold dltb. rewrite Bltb_correct by assumption. rewrite Rlt_bool_false; [reflexivity|]. unfold val in V. rewrite V. exact TU.
Qed.
Lemma rn_format x : generic_format radix2 fx x -> rn x = x.
Proof. intros G. apply round_generic; [apply valid_rnd_N|exact G]. Qed.
Lemma rn_mono x y : (x <= y)%R -> (rn x <= rn y)%R.
Proof. intros. apply round_le; [apply fx_valid|apply valid_rnd_N|assumption]. Qed.
Lemma val_format x : fin x -> generic_format radix2 fx (val x).
Proof. intros _. apply (generic_format_B2R prec64 emax64). Qed.
Lemma fraction x t : fin x -> (IZR t <= val x < IZR t + 1)%R -> 0 <= t <= 2 ^ 52 ->
  fin (dsub x (d_of_Z t)) /\ val (dsub x (d_of_Z t)) = (val x - IZR t)%R.
Proof.
  intros F H T. destruct (d_of_Z_exact t) as (V & Ft). { change (2 ^ 53) with (2 * 2 ^ 52). lia. }
  assert (G : generic_format radix2 fx (val x - IZR t)).
  { destruct (Z.eq_dec t 0) as [->|N]; [rewrite Rminus_0_r; apply val_format, F|].
    assert (1 <= IZR t)%R by (apply IZR_le; lia). apply sterbenz; [apply fx_valid|apply FLT_exp_monotone|apply val_format, F|rewrite <- V; apply val_format, Ft|]. lra. }
  pose proof (Bminus_correct prec64 emax64 Hprec64 Hmax64 mode_NE x (d_of_Z t) F Ft) as C. unfold val in *. rewrite V in C.
  change (round radix2 (SpecFloat.fexp prec64 emax64) (round_mode mode_NE) (B2R x - IZR t)) with (rn (B2R x - IZR t)) in C. rewrite (rn_format _ G) in C.
  rewrite Rlt_bool_true in C. { destruct C as (C1 & C2 & _). split; [exact C2|exact C1]. }
  rewrite Rabs_pos_eq by lra. apply Rlt_le_trans with 1%R; [lra|]. change 1%R with (bpow radix2 0). apply bpow_le. unfold emax64. lia.
Qed.
(** The ten decimals. *)
Lemma decimals f : fin f -> (0 <= val f < 1)%R -> exists d, dfloor (dmul f (d_of_Z 10000000000)) = Some d /\ 0 <= d < 10000000000 /\
  (Rabs (IZR d / 10000000000 - val f) <= 2 / 10000000000)%R /\ (val f = 0%R -> d = 0) /\ ((/ 10 <= val f)%R -> 1000000000 <= d).
Proof.
  intros F H. destruct (d_of_Z_exact 10000000000 ltac:(cbn; lia)) as (V & F10). set (y := (val f * 10000000000)%R).
  assert (P1 : (val f <= 1 - / 9007199254740992)%R).
  { assert (G1 : generic_format radix2 fx 1) by (change 1%R with (IZR 1); apply int_format; cbn; lia).
    pose proof (pred_ge_gt radix2 fx (val f) 1 (val_format f F) G1 (proj2 H)) as P. change 1%R with (bpow radix2 0) in P at 1. rewrite pred_bpow in P. change (fx 0) with (-53) in P. change (bpow radix2 (-53)) with (/ 9007199254740992)%R in P. change (bpow radix2 0) with 1%R in P. exact P. }
  assert (Y0 : (0 <= y)%R) by (unfold y; lra).
  assert (YU : (rn y <= 10000000000 - / 524288)%R).
  { assert (GU : generic_format radix2 fx (10000000000 - / 524288)).
    { replace (10000000000 - / 524288)%R with (IZR 5242879999999999 * bpow radix2 (-19))%R by (change (bpow radix2 (-19)) with (/ 524288)%R; lra). apply generic_format_FLT. exists (Float radix2 5242879999999999 (-19)); [reflexivity|cbn; lia|cbn; lia]. }
    assert (SU : succ radix2 fx (10000000000 - / 524288) = (10000000000)%R).
    { rewrite succ_eq_pos by lra. rewrite ulp_neq_0 by lra. unfold cexp. rewrite (mag_unique_pos radix2 _ 34) by (change (bpow radix2 (34 - 1)) with 8589934592%R; change (bpow radix2 34) with 17179869184%R; lra). change (fx 34) with (-19). change (bpow radix2 (-19)) with (/ 524288)%R. lra. }
    apply round_N_le_midp; [apply fx_valid|exact GU|]. rewrite SU. unfold y. lra. }
  assert (YL : (0 <= rn y)%R) by (rewrite <- (rn_format 0) by (apply generic_format_0); apply rn_mono, Y0).
  destruct (dmul_spec f (d_of_Z 10000000000)) as (VM & FM). { rewrite V. fold y. rewrite Rabs_pos_eq by exact YL. apply Rlt_le_trans with (bpow radix2 52); [change (bpow radix2 52) with 4503599627370496%R; lra|apply bpow_le; lia]. }
  rewrite V in VM. fold y in VM. assert (FF : fin (dmul f (d_of_Z 10000000000))) by (unfold fin; rewrite FM, F, F10; reflexivity).
  destruct (dfloor_spec _ FF) as (d & E & B & D0). { rewrite VM. change (bpow radix2 52) with 4503599627370496%R. lra. }
  exists d. rewrite VM in B. split; [exact E|].
  assert (DU : d < 10000000000) by (apply lt_IZR; lra). split; [lia|].
  destruct (rn_error y) as (eps & eta & E1 & E2 & E3). rewrite b53 in E1. pose proof eta_small as E0.
  assert (YE : (Rabs (y * eps) <= 10000000000 * / 9007199254740992)%R) by (rewrite Rabs_mult; apply Rmult_le_compat; try apply Rabs_pos; [rewrite Rabs_pos_eq by exact Y0; unfold y; lra|exact E1]).
  assert (YC : (Rabs (rn y - y) <= / 100)%R). { rewrite E3. replace (y * (1 + eps) + eta - y)%R with (y * eps + eta)%R by ring. eapply Rle_trans; [apply Rabs_triang|]. lra. }
  split; [|split].
  - replace (val f) with (y / 10000000000)%R by (unfold y; field). replace (IZR d / 10000000000 - y / 10000000000)%R with ((IZR d - y) * / 10000000000)%R by field. rewrite Rabs_mult, (Rabs_pos_eq (/ 10000000000)) by lra.
    apply Rmult_le_compat_r; [lra|]. apply Rabs_le_inv in YC. apply Rabs_le. lra.
  - intros Z0. assert (y = 0%R) as Y by (unfold y; rewrite Z0; ring). rewrite Y, (rn_format 0) in B by apply generic_format_0. assert (d < 1) by (apply lt_IZR; lra). lia.
  - intros L. assert (G9 : generic_format radix2 fx 1000000000) by (apply (int_format 1000000000); cbn; lia). assert (1000000000 <= rn y)%R by (rewrite <- (rn_format _ G9); apply rn_mono; unfold y; lra).
    assert (IZR 999999999 < IZR d)%R as Q by lra. apply lt_IZR in Q. lia.
Qed.

(** C99 (part): a coordinate that is not negative and whose fraction is 0 or at least a
    tenth is written as a decimal within 2 / 10^10 of it. *)
Theorem C99_text_partial : forall v, is_finite v = true -> (0 <= B2R v <= bpow radix2 52)%R ->
  (let f := B2R v - IZR (Zfloor (B2R v)) in f = 0 \/ / 10 <= f)%R ->
  exists s m k, highPrecStr v = Some s /\ denotes s m k /\ (Rabs (IZR m / IZR (10 ^ Z.of_nat k) - B2R v) <= 2 / 10000000000)%R.
Proof.
  intros v F H FR. destruct (dfloor_spec v F H) as (t & E & B & T). change (B2R v) with (val v) in *.
  assert (FL : Zfloor (val v) = t) by (apply Zfloor_imp; rewrite plus_IZR; exact B). rewrite FL in FR. cbv zeta in FR.
  destruct (fraction v t F B T) as (Ff & Vf). destruct (decimals _ Ff) as (d & Ed & Dd & C & C0 & C1); [rewrite Vf; lra|]. rewrite Vf in C, C0, C1.
  assert (T20 : t < 10 ^ Z.of_nat 20) by (change (10 ^ Z.of_nat 20) with 100000000000000000000; change (2 ^ 52) with 4503599627370496 in T; lia).
  assert (D20 : d < 10 ^ Z.of_nat 20) by (change (10 ^ Z.of_nat 20) with 100000000000000000000; lia).
  destruct (digits_spec 20 t ltac:(lia)) as (N1 & I1). destruct (digits_spec 20 d ltac:(lia)) as (N2 & I2).
  exists (to_string t ++ 46 :: to_string d), (num_of (digits 20 t ++ digits 20 d)), (length (digits 20 d)).
  split; [unfold highPrecStr; rewrite E; cbn [obind]; rewrite Ed; reflexivity|]. split.
  - left. unfold to_string. replace (t <? 0) with false by lia. replace (d <? 0) with false by lia. exists (digits 20 t), (digits 20 d). repeat split; try assumption; apply digits_nonempty; lia.
  - rewrite num_app, N1, N2, plus_IZR, mult_IZR. destruct FR as [Z0|FR].
    + rewrite (C0 Z0). change (length (digits 20 0)) with 1%nat. change (10 ^ Z.of_nat 1) with 10. replace ((IZR t * 10 + 0) / 10 - val v)%R with (- (val v - IZR t))%R by field. rewrite Z0, Ropp_0, Rabs_R0. lra.
    + rewrite (digits_length 10 20 d); [|lia|exact (proj2 Dd)|right; apply C1, FR|lia]. change (10 ^ Z.of_nat 10) with 10000000000.
      replace ((IZR t * 10000000000 + IZR d) / 10000000000 - val v)%R with (IZR d / 10000000000 - (val v - IZR t))%R by field. exact C.
Qed.
Print Assumptions C99_text_partial.
(** C99 refuted: 51.0625 is written as 51.625, and -0.5 as -1.5 (with zeros behind). *)
Theorem C99_text_refuted :
  (exists v s m k, B2R v = (817 / 16)%R /\ highPrecStr v = Some s /\ denotes s m k /\ (IZR m / IZR (10 ^ Z.of_nat k) = 51.625)%R) /\
  (exists v s m k, B2R v = (- / 2)%R /\ highPrecStr v = Some s /\ denotes s m k /\ (IZR m / IZR (10 ^ Z.of_nat k) = - 1.5)%R).
Proof.
  split.
  - exists (d_bin 817 (-4)), [53; 49; 46; 54; 50; 53; 48; 48; 48; 48; 48; 48], 51625000000, 9%nat. split; [|split; [vm_compute; reflexivity|split]].
    + assert (S : B2SF (d_bin 817 (-4)) = SpecFloat.S754_finite false 7186407999143936 (-47)) by (vm_compute; reflexivity). rewrite <- SF2R_B2SF, S. cbn [SF2R cond_Zopp F2R Fnum Fexp]. unfold F2R. cbn [Fnum Fexp]. change (bpow radix2 (-47)) with (/ 140737488355328)%R. lra.
    + left. exists [53; 49], [54; 50; 53; 48; 48; 48; 48; 48; 48]. repeat split; try discriminate; repeat (constructor; [unfold is_digit; lia|]); constructor.
    + change (10 ^ Z.of_nat 9) with 1000000000. lra.
  - exists (d_bin (-1) (-1)), [45; 49; 46; 53; 48; 48; 48; 48; 48; 48; 48; 48; 48], (-15000000000), 10%nat. split; [|split; [vm_compute; reflexivity|split]].
    + assert (S : B2SF (d_bin (-1) (-1)) = SpecFloat.S754_finite true 4503599627370496 (-53)) by (vm_compute; reflexivity). rewrite <- SF2R_B2SF, S. cbn [SF2R cond_Zopp]. unfold F2R. cbn [Fnum Fexp]. change (bpow radix2 (-53)) with (/ 9007199254740992)%R. rewrite opp_IZR. lra.
    + right. exists [49; 46; 53; 48; 48; 48; 48; 48; 48; 48; 48; 48]. split; [reflexivity|]. exists [49], [53; 48; 48; 48; 48; 48; 48; 48; 48; 48]. repeat split; try discriminate; repeat (constructor; [unfold is_digit; lia|]); constructor.
    + change (10 ^ Z.of_nat 10) with 10000000000. lra.
Qed.
Print Assumptions C99_text_refuted.
Example C99_demo : exists v, is_finite v = true /\ B2R v = (53.375)%R /\ highPrecStr v = Some [53; 51; 46; 51; 55; 53; 48; 48; 48; 48; 48; 48; 48].
Proof.
  exists (d_bin 427 (-3)). split; [vm_compute; reflexivity|]. split; [|vm_compute; reflexivity].
  assert (S : B2SF (d_bin 427 (-3)) = SpecFloat.S754_finite false 7511863440965632 (-47)) by (vm_compute; reflexivity). rewrite <- SF2R_B2SF, S. cbn [SF2R cond_Zopp]. unfold F2R. cbn [Fnum Fexp]. change (bpow radix2 (-47)) with (/ 140737488355328)%R. lra.
Qed.

(** ---- C100: the order of the two numbers of a point ---- *)
(** The points a KML line wants: longitude, then latitude, of the corner with the smallest
    and the one with the largest coordinates. *)
Definition lon_lat (position : D -> D -> D * D) (mm : extremes) : (D * D) * (D * D) :=
  (position (x_min mm) (y_min mm), position (x_max mm) (y_max mm)).
(** C100 (part): with a zone and eastings beyond 180 the longitude comes first. *)
Theorem C100_zone_partial : forall conv mm, dltb (d_of_Z 180) (x_min mm) = true ->
  kml_points conv true mm = lon_lat (fun e n => (snd (conv e n), fst (conv e n))) mm.
Proof. intros conv mm H. unfold kml_points, lon_lat. rewrite H. cbn [andb]. destruct (conv (x_min mm) (y_min mm)), (conv (x_max mm) (y_max mm)). reflexivity. Qed.
Print Assumptions C100_zone_partial.
(** C100 refuted: coordinates already in degrees (x the longitude, y the latitude) are
    written latitude first, so that the position 6 W, 53 N becomes 53 E, 6 S; this is so
    for every file. *)
Theorem C100_degrees_refuted :
  (forall conv mm, kml_points conv false mm = lon_lat (fun x y => (y, x)) mm) /\
  exists mm, dleb (d_of_Z (-180)) (x_min mm) = true /\ dleb (x_max mm) (d_of_Z 180) = true /\ dleb (d_of_Z (-90)) (y_min mm) = true /\ dleb (y_max mm) (d_of_Z 90) = true /\
    forall conv, kml_points conv false mm <> lon_lat (fun x y => (x, y)) mm.
Proof.
  assert (A : forall conv mm, kml_points conv false mm = lon_lat (fun x y => (y, x)) mm) by (intros conv mm; unfold kml_points, lon_lat; rewrite andb_false_r; reflexivity).
  split; [exact A|]. exists (mkExt (d_of_Z (-6)) (d_of_Z (-5)) (d_of_Z 53) (d_of_Z 54)). do 4 (split; [vm_compute; reflexivity|]).
  intros conv E. rewrite A in E. unfold lon_lat in E. cbn [x_min x_max y_min y_max] in E. apply (f_equal (fun q => dltb (d_of_Z 0) (fst (fst q)))) in E. cbn [fst] in E.
  assert (dltb (d_of_Z 0) (d_of_Z 53) = true) by (vm_compute; reflexivity). assert (dltb (d_of_Z 0) (d_of_Z (-6)) = false) by (vm_compute; reflexivity). congruence.
Qed.
Print Assumptions C100_degrees_refuted.
Example C100_demo : dltb (d_of_Z 180) (x_min (mkExt (d_of_Z 500000) (d_of_Z 600000) (d_of_Z 5900000) (d_of_Z 6000000))) = true.
Proof. vm_compute. reflexivity. Qed.
