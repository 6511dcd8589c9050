(** C71, C83: what a finite limit does. *)
From Coq Require Import Reals Lra Lia.
From Flocq Require Import Core IEEE754.BinarySingleNaN.
From Verif Require Import Base DecompProofs FloatModel FloatProofs SignalProperties FourDModel FourDSpec FourDProofs FourDProperties.
Import ListNotations.
Open Scope Z_scope.

Lemma descend_le fuel test : test (two64 - 1) = None -> forall k lo r, descend fuel test k lo = Some r -> 0 <= k < two64 - 1 -> 0 <= lo -> 0 <= r <= k.
Proof.
  intros TN. induction fuel as [|fuel IH]; intros k lo r H K L; cbn [descend] in H; [discriminate H|]. destruct (Z.leb_spec lo k); [|injection H as <-; lia]. destruct (test k) as [[]|] eqn:E; cbn [obind] in H; try discriminate H; [|injection H as <-; lia].
  destruct (Z.eq_dec k 0) as [->|NZ].
  - change (u64 (0 - 1)) with (two64 - 1) in H. destruct fuel; cbn [descend] in H; [discriminate H|]. rewrite TN in H. destruct (Z.leb_spec lo (two64 - 1)); [discriminate H|]. assert (two64 = 18446744073709551616) by reflexivity. lia.
  - rewrite u64_small in H by (unfold in_u64; lia). apply IH in H; lia.
Qed.
Lemma descend_drop fuel test k lo r : test (two64 - 1) = None -> test k = Some true -> descend fuel test k lo = Some r -> 1 <= k < two64 - 1 -> 0 <= lo <= k -> 0 <= r <= k - 1.
Proof.
  intros TN T H K L. destruct fuel as [|fuel]; [discriminate H|]. cbn [descend] in H. destruct (Z.leb_spec lo k); [|lia]. rewrite T in H. cbn [obind] in H. rewrite u64_small in H by (unfold in_u64; lia). apply descend_le in H; try assumption; lia.
Qed.
Lemma window_parts dm c1 c2 w : window dm c1 c2 = Some w -> exists rs re ls le, w = (rs, re, ls, le) /\
  climb (S (length c2)) (fun k => below (xat c2 k) (xat c1 0) dm) 0 (size c2) = Some rs /\
  descend (S (S (length c2))) (fun k => above (xat c2 k) (xat c1 (u64 (size c1 - 1))) dm) (size c2) rs = Some re /\
  climb (S (length c1)) (fun k => below (xat c1 k) (xat c2 rs) dm) 0 (size c1) = Some ls /\
  descend (S (S (length c1))) (fun k => above (xat c1 k) (xat c2 (u64 (re - 1))) dm) (size c1) ls = Some le.
Proof.
  intros H. unfold window in H.
  destruct (climb _ _ 0 (size c2)) as [rs|] eqn:H1; [|discriminate H]. cbn [obind] in H. destruct (descend _ _ (size c2) rs) as [re|] eqn:H2; [|discriminate H]. cbn [obind] in H. destruct (climb _ _ 0 (size c1)) as [ls|] eqn:H3; [|discriminate H]. cbn [obind] in H. destruct (descend _ _ (size c1) ls) as [le|] eqn:H4; [|discriminate H]. cbn [obind] in H. injection H as <-.
  exists rs, re, ls, le. repeat split; assumption.
Qed.
Lemma descend_first fuel test k lo r : descend fuel test k lo = Some r -> lo <= k -> exists b, test k = Some b.
Proof. intros H L. destruct fuel; [discriminate H|]. cbn [descend] in H. destruct (Z.leb_spec lo k); [|lia]. destruct (test k) as [b|]; [eauto|discriminate H]. Qed.

(** The limit is not absurdly large. *)
Definition moderate (dm : F) (us : list shot) : Prop := forall u, In u us -> fltb (fadd (xs u) dm) fmax = true.
Lemma window_lend dm c1 c2 rs re ls le : c1 <> [] -> size c1 + 64 < two64 -> size c2 + 64 < two64 -> moderate dm c2 -> window dm c1 c2 = Some (rs, re, ls, le) -> le <= size c1 - 1.
Proof.
  intros N1 B1 B2 MO H. apply window_parts in H. destruct H as (rs' & re' & ls' & le' & E & H1 & H2 & H3 & H4). injection E as -> -> -> ->. pose proof (size_pos c1 N1) as S1. pose proof (size_nn c2) as S2. assert (TE : two64 = 18446744073709551616) by reflexivity.
  apply climb_range in H1. apply climb_range in H3. apply descend_le in H2; [|rewrite xat_far by exact B2; reflexivity|lia|lia].
  destruct (descend_first _ _ _ _ _ H4 ltac:(lia)) as (b & X). rewrite xat_pad in X. unfold above in X. cbn [obind] in X.
  destruct (xat c2 (u64 (re' - 1))) as [v|] eqn:XV; [|discriminate X]. clear X.
  assert (V : exists u, In u c2 /\ v = xs u).
  { destruct (Z.eq_dec re' 0) as [->|NZ]; [change (u64 (0 - 1)) with (two64 - 1) in XV; rewrite xat_far in XV by exact B2; discriminate XV|].
    rewrite u64_small in XV by (unfold in_u64; lia). destruct (xat_in c2 (re' - 1) ltac:(lia)) as (u & E & XU). rewrite XU in XV. injection XV as <-. exists u. split; [eapply nth_error_In, E|reflexivity]. }
  destruct V as (u & U & ->). apply descend_drop in H4; [lia|rewrite xat_far by exact B1; reflexivity| |lia|lia].
  rewrite xat_pad. unfold above. cbn [obind]. rewrite (MO u U). reflexivity.
Qed.
Lemma nth_init ix c1 u us m k t : initUpdate ix c1 (u :: us) = Some m -> nth_error c1 k = Some t -> nth_error m k = Some (tn u, dval ix t u).
Proof. intros H T. cbn [initUpdate] in H. injection H as <-. rewrite nth_error_map, T. reflexivity. Qed.
(** Whatever file 2 holds, the last trace of file 1 on every process is only ever
    compared with the first trace of file 2 on that process. *)
Theorem C71_last_refuted : forall chk ix dm c1 u us cs m t, c1 <> [] -> size c1 + 64 < two64 -> (forall c, In c cs -> size c + 64 < two64) -> moderate dm (concat cs) ->
  calc4DBin chk ix dm c1 (u :: us) cs = Some m -> nth_error c1 (length c1 - 1) = Some t ->
  nth_error m (length c1 - 1) = Some (tn u, dval ix t u).
Proof.
  intros chk ix dm c1 u us cs m t N1 B1 B2 MO H T. apply calc_parts in H. destruct H as (es & lmin & lmax & m0 & _ & _ & E3 & R). apply (nth_init ix c1 u us m0 (length c1 - 1) t) in E3; [|exact T].
  assert (AC : forall c, In c (map fst (filter (fun ce => active dm lmin lmax (snd ce)) (combine cs es))) -> In c cs) by (intros c C; eapply actives_in, C).
  revert R AC. generalize (map fst (filter (fun ce => active dm lmin lmax (snd ce)) (combine cs es))). intros l. revert m0 E3. induction l as [|c l IH]; intros m0 E3 R AC; cbn [rounds] in R; [injection R as <-; exact E3|].
  destruct (getCoordsWin chk c) as [c'|] eqn:G; [|discriminate R]. cbn [obind] in R. assert (c' = c) as -> by (unfold getCoordsWin in G; destruct (chk && _); congruence).
  destruct (update ix dm c1 c m0) as [m1|] eqn:U; [|discriminate R]. cbn [obind] in R. apply (IH m1); [|exact R|intros; apply AC; right; assumption].
  unfold update in U. destruct (window dm c1 c) as [(((rs & re) & ls) & le)|] eqn:W; [|discriminate U]. cbn [obind] in U. injection U as <-. pose proof (AC c (or_introl eq_refl)) as IC.
  apply window_lend in W; try assumption; [|apply B2, IC|intros x X; apply MO, in_concat; exists c; split; assumption].
  rewrite (scan_all_nth _ _ _ _ _ _ _ _ _ _ T E3). replace ((ls / 32 * 32 <=? 0 + Z.of_nat (length c1 - 1)) && (0 + Z.of_nat (length c1 - 1) <? le)) with false; [reflexivity|]. symmetry. apply andb_false_intro2. apply Z.ltb_ge. unfold size in W. destruct c1; [congruence|]. cbn [length] in *. lia.
Qed.
Print Assumptions C71_last_refuted.
(** So an exact repeat of the last trace goes unnoticed. *)
Definition ex_last : list shot := [at_ 0 0 0 10 0; at_ 1 5 0 15 0].
Example ex_last_missed : moderate (f_of_Z 4) (concat [ex_last]) /\ option_map (map fst) (calc4DBin false false (f_of_Z 4) ex_last ex_last [ex_last]) = Some [0; 0] /\ option_map (fun m => map fst (kept (f_of_Z 4) ex_last m)) (calc4DBin false false (f_of_Z 4) ex_last ex_last [ex_last]) = Some [(0, 0)].
Proof. split; [intros u [<-|[<-|[]]]; vm_compute; reflexivity|]. split; vm_compute; reflexivity. Qed.

(** ---- A process with one trace of file 2 ---- *)
Lemma rounds_none chk ix dm c1 c : (forall m, update ix dm c1 c m = None) -> forall l m, In c l -> rounds chk ix dm c1 l m = None.
Proof.
  intros U. induction l as [|c' l IH]; intros m []; cbn [rounds].
  - subst c'. unfold getCoordsWin. destruct (chk && _); [reflexivity|]. cbn [obind]. rewrite U. reflexivity.
  - destruct (getCoordsWin chk c') as [x|]; [|reflexivity]. cbn [obind]. destruct (update ix dm c1 x m); [|reflexivity]. cbn [obind]. apply IH. assumption.
Qed.
Lemma in_actives f (cs : list (list shot)) (es : list (F * F)) c e : In c cs -> omap extent cs = Some es -> extent c = Some e -> f e = true -> In c (map fst (filter (fun ce => f (snd ce)) (combine cs es))).
Proof.
  revert es. induction cs as [|c' cs IH]; intros es [] O E A; cbn [omap] in O; destruct (extent c') as [e'|] eqn:E'; try discriminate O; cbn [obind] in O; destruct (omap extent cs) as [es'|] eqn:O'; try discriminate O; cbn [obind] in O; injection O as <-; cbn [combine filter snd].
  - subst c'. rewrite E in E'. injection E' as <-. rewrite A. left. reflexivity.
  - specialize (IH es' H eq_refl E A). destruct (f e'); [right|]; exact IH.
Qed.
Theorem C71_single_refuted : forall chk ix dm c1 mine cs u lmin lmax, c1 <> [] -> size c1 + 64 < two64 -> In [u] cs -> extent c1 = Some (lmin, lmax) ->
  active dm lmin lmax (xs u, xs u) = true -> fltb (fadd lmax dm) (xs u) = false -> fltb (fadd lmax dm) fmax = true ->
  calc4DBin chk ix dm c1 mine cs = None.
Proof.
  intros chk ix dm c1 mine cs u lmin lmax N1 B1 IC X1 A Z1 Z2. unfold calc4DBin. destruct (omap extent cs) as [es|] eqn:O; [|reflexivity]. cbn [obind]. rewrite X1. cbn [obind]. destruct (initUpdate ix c1 mine) as [m0|]; [|reflexivity]. cbn [obind].
  apply (rounds_none chk ix dm c1 [u]); [|apply (in_actives (active dm lmin lmax) cs es [u] (xs u, xs u)); try assumption; reflexivity].
  intros m. unfold update. destruct (window dm c1 [u]) as [w|] eqn:W; [|reflexivity]. exfalso. apply window_parts in W. destruct W as (rs & re & ls & le & _ & H1 & H2 & H3 & H4).
  pose proof (size_pos c1 N1) as S1. change (size [u]) with 1 in *. apply climb_range in H1. apply climb_range in H3. assert (TE : two64 = 18446744073709551616) by reflexivity.
  unfold extent in X1. destruct (xat c1 0); [|discriminate X1]. cbn [obind] in X1. destruct (xat c1 (u64 (size c1 - 1))) as [l|]; [|discriminate X1]. cbn [obind] in X1. injection X1 as -> ->.
  assert (re = 0). { cbn [descend] in H2. destruct (Z.leb_spec rs 1); [|lia]. change (xat [u] 1) with (Some fmax) in H2. unfold above at 1 in H2. cbn [obind] in H2. rewrite Z2 in H2. change (u64 (1 - 1)) with 0 in H2. destruct (Z.leb_spec rs 0); [|congruence]. change (xat [u] 0) with (Some (xs u)) in H2. unfold above at 1 in H2. cbn [obind] in H2. rewrite Z1 in H2. congruence. }
  subst re. destruct (descend_first _ _ _ _ _ H4 ltac:(lia)) as (b & X). rewrite xat_pad in X. discriminate X.
Qed.
Print Assumptions C71_single_refuted.
Example ex_single : let dm := f_of_Z 4 in let c1 := [at_ 0 0 0 10 0; at_ 1 5 0 15 0] in let u := at_ 2 4 0 14 0 in
  active dm (f_of_Z 0) (f_of_Z 5) (xs u, xs u) = true /\ fltb (fadd (f_of_Z 5) dm) (xs u) = false /\ fltb (fadd (f_of_Z 5) dm) fmax = true /\ extent c1 = Some (f_of_Z 0, f_of_Z 5) /\ calc4DBin false false dm c1 [u] [[u]] = None.
Proof. cbv zeta. split; [vm_compute; reflexivity|]. split; [vm_compute; reflexivity|]. split; [vm_compute; reflexivity|]. split; [reflexivity|vm_compute; reflexivity]. Qed.

(** ---- Windows of too few bytes ---- *)
Theorem C83_refuted : forall ix dm c1 mine cs m, calc4DBin true ix dm c1 mine cs = Some m -> initUpdate ix c1 mine = Some m.
Proof.
  intros ix dm c1 mine cs m H. apply calc_parts in H. destruct H as (es & lmin & lmax & m0 & O & _ & E3 & R). rewrite E3. f_equal.
  destruct (map fst (filter _ (combine cs es))) as [|c l] eqn:L; cbn [rounds] in R; [congruence|]. exfalso. assert (I : In c (map fst (filter (fun ce => active dm lmin lmax (snd ce)) (combine cs es)))) by (rewrite L; left; reflexivity). apply actives_in in I.
  assert (N : c <> []). { intros ->. clear -O I. revert es O. induction cs as [|c' cs IH]; intros es O; [destruct I|]. cbn [omap] in O. destruct (extent c') eqn:E; [|discriminate O]. destruct I as [->|I]; [|cbn [obind] in O; destruct (omap extent cs) eqn:O'; [|discriminate O]; apply (IH I _ eq_refl)]. revert E. vm_compute. discriminate. }
  unfold getCoordsWin, window_bytes in R. pose proof (size_pos c N). destruct (Z.leb_spec (4 * size c) (size c)); [lia|]. discriminate R.
Qed.
Print Assumptions C83_refuted.
(** The whole survey repeated, and yet the only comparison made is the first one. *)
Example ex_C83 : calc4DBin true false unlimited ex_c1 (nth 0 ex_cs []) ex_cs = None /\ option_map (map fst) (calc4DBin false false unlimited ex_c1 (nth 0 ex_cs []) ex_cs) = Some [0; 1; 2].
Proof. split; vm_compute; reflexivity. Qed.

(** ---- The boat sailing the other way ---- *)
Lemma sub_self (x : F) : is_finite x = true -> fsub x x = f0.
Proof.
  intros H. pose proof (Bminus_correct prec32 emax32 Hprec32 Hmax32 mode_NE x x H H) as C. fold (fsub x x) in C. rewrite Rminus_eq_0, round_0 in C by (apply valid_rnd_N). rewrite Rabs_R0 in C. rewrite Rlt_bool_true in C by apply fbig_pos. destruct C as (A & B & C). rewrite Rcompare_Eq in C by reflexivity.
  assert (Bsign (fsub x x) = false) as S by (rewrite C; destruct (Bsign x); reflexivity). clear C. unfold f0. destruct (fsub x x) as [s|s| |s m e Hb] eqn:E; cbn [Bsign] in S; try discriminate B; [rewrite S; reflexivity|]. exfalso. cbn [B2R] in A. apply (F2R_neq_0 radix2 (Float radix2 (cond_Zopp s (Zpos m)) e)) in A; [exact A|]. destruct s; discriminate.
Qed.
Lemma hypot_0 : hypot f0 f0 = f0. Proof. apply B2SF_inj. vm_compute. reflexivity. Qed.
Definition mirror (t u : shot) : Prop := xs u = xr t /\ ys u = yr t /\ xr u = xs t /\ yr u = ys t.
Lemma mirror_0 t u : located t -> located u -> mirror t u -> dsr t u = f0.
Proof.
  intros T U (A & B & C & D). pose proof T as (F1 & F2 & F3 & F4). unfold dsr. rewrite A, B, C, D. rewrite !(sub_self _ F1), !(sub_self _ F2), !(sub_self _ F3), !(sub_self _ F4), hypot_0. assert (E : fadd f0 f0 = f0) by (apply B2SF_inj; vm_compute; reflexivity). rewrite E.
  set (x := fadd (hypot (fsub (xs t) (xr t)) (fsub (ys t) (yr t))) (hypot (fsub (xr t) (xs t)) (fsub (yr t) (ys t)))). assert (P : pos x) by (apply add_pos; apply hypot_pos; apply sub_num; assumption). unfold fmin. destruct (fltb f0 x) eqn:L; [reflexivity|].
  apply pos_eq; [exact P|split; reflexivity| |exact L]. destruct x as [[]|[]| |[]]; destruct P as (P1 & P2); try discriminate P1; try discriminate P2; reflexivity.
Qed.
Theorem C71_reverse_refuted : forall dm t a u, located t -> located u -> mirror t u -> fleb (fsub (xs a) dm) (xs t) = false -> fleb (dsr t a) dm = false ->
  dsr t u = f0 /\ exists m, calc4DBin false false dm [t] [a; u] [[a; u]] = Some m /\ kept dm [t] m = [].
Proof.
  intros dm t a u T U M FA FD. split; [apply mirror_0; assumption|]. exists [(tn a, dsr t a)]. split; [|unfold kept; cbn [combine filter snd map]; rewrite FD; reflexivity].
  unfold calc4DBin. cbn [omap]. change (extent [a; u]) with (Some (xs a, xs u)). change (extent [t]) with (Some (xs t, xs t)). cbn [obind]. cbn [initUpdate map obind combine filter snd]. unfold active. cbn [fst snd]. rewrite FA. reflexivity.
Qed.
Print Assumptions C71_reverse_refuted.
Example ex_reverse : let dm := f_of_Z 4 in let t := at_ 0 0 0 20 0 in let a := at_ 0 15 0 90 0 in let u := at_ 1 20 0 0 0 in
  located t /\ located u /\ mirror t u /\ fleb (fsub (xs a) dm) (xs t) = false /\ fleb (dsr t a) dm = false.
Proof. cbv zeta. split; [apply at_located; unfold two24; lia|]. split; [apply at_located; unfold two24; lia|]. split; [repeat split|]. split; vm_compute; reflexivity. Qed.

(** ---- Not the documented distance ---- *)
Lemma at_R z : Z.abs z <= two24 -> B2R (f_of_Z z) = IZR z. Proof. intros H. apply of_Z_int, H. Qed.
Lemma apart_x a b : apart a 0 b 0 = Rabs (a - b).
Proof. unfold apart. rewrite <- sqrt_Rsqr_abs. f_equal. unfold Rsqr. ring. Qed.
Theorem C71_documented_refuted : exists t A B, located t /\ located A /\ located B /\ (documented t A < documented t B)%R /\
  option_map (map fst) (calc4DBin false false unlimited [t] [B; A] [[B; A]]) = Some [tn B].
Proof.
  exists (at_ 0 0 0 10 0), (at_ 7 0 0 (-10) 0), (at_ 8 (-6) 0 16 0). split; [apply at_located; unfold two24; lia|]. split; [apply at_located; unfold two24; lia|]. split; [apply at_located; unfold two24; lia|]. split; [|vm_compute; reflexivity].
  unfold documented, at_. cbn [xs ys xr yr]. rewrite !at_R by (unfold two24; lia). rewrite !apart_x. assert (R1 : forall a b, Rabs (IZR a - IZR b) = IZR (Z.abs (a - b))) by (intros; rewrite <- minus_IZR, abs_IZR; reflexivity). rewrite !R1.
  assert (RM : forall a b, Rmin (IZR a) (IZR b) = IZR (Z.min a b)). { intros a b. unfold Rmin. destruct (Rle_dec (IZR a) (IZR b)) as [L|L]; [apply le_IZR in L; rewrite Z.min_l by lia; reflexivity|]. assert (b <= a). { destruct (Z.le_gt_cases a b) as [K|K]; [|lia]. apply IZR_le in K. contradiction. } rewrite Z.min_r by lia. reflexivity. }
  rewrite !RM, <- !plus_IZR. rewrite !pow_IZR. apply IZR_lt. vm_compute. reflexivity.
Qed.
Print Assumptions C71_documented_refuted.

(** ---- What the pruning does keep ---- *)
Definition clamp (x : R) : R := Rmax (- bpow radix2 128) (Rmin (bpow radix2 128) x).
Lemma clamp_mono a b : (a <= b)%R -> (clamp a <= clamp b)%R.
Proof. intros H. unfold clamp. apply Rle_max_compat_l, Rle_min_compat_l, H. Qed.
Lemma clamp_id x : (Rabs x < bpow radix2 128)%R -> clamp x = x.
Proof. intros H. apply Rabs_lt_inv in H. unfold clamp. rewrite Rmin_right by lra. rewrite Rmax_right by lra. reflexivity. Qed.
Lemma sign_B2R (x : F) : is_finite x = true -> if Bsign x then (B2R x <= 0)%R else (0 <= B2R x)%R.
Proof.
  destruct x as [s|s| |s m e H]; intros Fx; try discriminate Fx; cbn [Bsign B2R]; [destruct s; lra|]. destruct s; cbn [cond_Zopp]; [apply F2R_le_0|apply F2R_ge_0]; cbn [Fnum]; lia.
Qed.
Lemma rnd_sign0 x : (0 <= x)%R -> (0 <= rnd x)%R. Proof. intros H. rewrite <- (round_0 radix2 (SpecFloat.fexp prec32 emax32) (round_mode mode_NE)) at 1. apply round_le; [apply fexp_correct; reflexivity|apply valid_rnd_N|exact H]. Qed.
Lemma rnd_sign1 x : (x <= 0)%R -> (rnd x <= 0)%R. Proof. intros H. rewrite <- (round_0 radix2 (SpecFloat.fexp prec32 emax32) (round_mode mode_NE)). apply round_le; [apply fexp_correct; reflexivity|apply valid_rnd_N|exact H]. Qed.
Lemma over_ext (r : F) x s : r = B754_infinity s -> (if s then x <= 0 else 0 <= x)%R -> (bpow radix2 128 <= Rabs (rnd x))%R -> fext r = clamp (rnd x).
Proof.
  intros -> S O. unfold fext, clamp. pose proof fbig_pos as BP. destruct s.
  - apply rnd_sign1 in S. rewrite Rabs_left1 in O by exact S. revert O BP. generalize (bpow radix2 128) (rnd x). intros b y O BP. rewrite Rmin_right by lra. rewrite Rmax_left by lra. reflexivity.
  - apply rnd_sign0 in S. rewrite Rabs_pos_eq in O by exact S. revert O BP. generalize (bpow radix2 128) (rnd x). intros b y O BP. rewrite Rmin_left by lra. rewrite Rmax_right by lra. reflexivity.
Qed.
Lemma sub_ext a b : is_finite a = true -> is_finite b = true -> is_nan (fsub a b) = false /\ fext (fsub a b) = clamp (rnd (B2R a - B2R b)).
Proof.
  intros A B. split; [apply sub_num; assumption|]. pose proof (Bminus_correct prec32 emax32 Hprec32 Hmax32 mode_NE a b A B) as C. fold (fsub a b) in C. destruct (Rlt_bool_spec (Rabs (rnd (B2R a - B2R b))) (bpow radix2 emax32)) as [L|L].
  - destruct C as (E & FI & _). rewrite (fext_fin _ FI), E. symmetry. apply clamp_id, L.
  - destruct C as (E & S). apply over_inf in E. apply (over_ext _ _ (Bsign a) E); [|exact L]. pose proof (sign_B2R a A) as SA. pose proof (sign_B2R b B) as SB. destruct (Bsign a), (Bsign b); try discriminate S; lra.
Qed.
Lemma add_ext a b : is_finite a = true -> is_finite b = true -> is_nan (fadd a b) = false /\ fext (fadd a b) = clamp (rnd (B2R a + B2R b)).
Proof.
  intros A B. pose proof (Bplus_correct prec32 emax32 Hprec32 Hmax32 mode_NE a b A B) as C. fold (fadd a b) in C. destruct (Rlt_bool_spec (Rabs (rnd (B2R a + B2R b))) (bpow radix2 emax32)) as [L|L].
  - destruct C as (E & FI & _). split; [apply FourDProofs.fin_num, FI|]. rewrite (fext_fin _ FI), E. symmetry. apply clamp_id, L.
  - destruct C as (E & S). apply over_inf in E. split; [rewrite E; reflexivity|]. apply (over_ext _ _ (Bsign a) E); [|exact L]. pose proof (sign_B2R a A) as SA. pose proof (sign_B2R b B) as SB. destruct (Bsign a), (Bsign b); try discriminate S; lra.
Qed.
Lemma nlt_ext a b : is_nan a = false -> is_nan b = false -> fltb a b = false <-> (fext b <= fext a)%R.
Proof.
  intros A B. split.
  - intros H. destruct (Rle_or_lt (fext b) (fext a)) as [|L]; [assumption|]. apply (fltb_spec a b A B) in L. congruence.
  - intros H. destruct (fltb a b) eqn:E; [|reflexivity]. apply (fltb_spec a b A B) in E. lra.
Qed.
Lemma fleb_R a b : is_finite a = true -> is_finite b = true -> fleb a b = true -> (B2R a <= B2R b)%R.
Proof. intros A B H. rewrite fleb_num in H by (apply FourDProofs.fin_num; assumption). apply negb_true_iff in H. apply nlt_ext in H; try (apply FourDProofs.fin_num; assumption). rewrite !fext_fin in H by assumption. exact H. Qed.
Lemma sub_mono a a' d : is_finite a = true -> is_finite a' = true -> is_finite d = true -> (B2R a <= B2R a')%R -> (fext (fsub a d) <= fext (fsub a' d))%R.
Proof. intros A A' D H. rewrite (proj2 (sub_ext a d A D)), (proj2 (sub_ext a' d A' D)). apply clamp_mono. apply round_le; [apply fexp_correct; reflexivity|apply valid_rnd_N|lra]. Qed.
Lemma add_mono a a' d : is_finite a = true -> is_finite a' = true -> is_finite d = true -> (B2R a <= B2R a')%R -> (fext (fadd a d) <= fext (fadd a' d))%R.
Proof. intros A A' D H. rewrite (proj2 (add_ext a d A D)), (proj2 (add_ext a' d A' D)). apply clamp_mono. apply round_le; [apply fexp_correct; reflexivity|apply valid_rnd_N|lra]. Qed.
(** x - d <= y, and y <= x + d, as the code computes them. *)
Definition not_below (d : F) (y x : shot) : Prop := fltb (xs y) (fsub (xs x) d) = false.
Definition not_above (d : F) (y x : shot) : Prop := fltb (fadd (xs x) d) (xs y) = false.
Lemma not_below_mono d y x y' x' : is_finite d = true -> is_finite (xs y) = true -> is_finite (xs x) = true -> is_finite (xs y') = true -> is_finite (xs x') = true -> (B2R (xs y) <= B2R (xs y'))%R -> (B2R (xs x') <= B2R (xs x))%R -> not_below d y x -> not_below d y' x'.
Proof.
  intros D Y X Y' X' HY HX H. unfold not_below in *. apply nlt_ext in H; [|apply FourDProofs.fin_num, Y|apply sub_num; assumption]. apply nlt_ext; [apply FourDProofs.fin_num, Y'|apply sub_num; assumption|]. rewrite (fext_fin (xs y)) in H by assumption. rewrite (fext_fin (xs y')) by assumption. pose proof (sub_mono _ _ d X' X D HX). lra.
Qed.
Lemma not_above_mono d y x y' x' : is_finite d = true -> is_finite (xs y) = true -> is_finite (xs x) = true -> is_finite (xs y') = true -> is_finite (xs x') = true -> (B2R (xs y') <= B2R (xs y))%R -> (B2R (xs x) <= B2R (xs x'))%R -> not_above d y x -> not_above d y' x'.
Proof.
  intros D Y X Y' X' HY HX H. unfold not_above in *. apply nlt_ext in H; [|apply (add_ext _ _ X D)|apply FourDProofs.fin_num, Y]. apply nlt_ext; [apply (add_ext _ _ X' D)|apply FourDProofs.fin_num, Y'|]. rewrite (fext_fin (xs y)) in H by assumption. rewrite (fext_fin (xs y')) by assumption. pose proof (add_mono _ _ d X X' D HX). lra.
Qed.
Lemma sorted_R c i j t u : Forall located c -> by_source c -> (i <= j)%nat -> nth_error c i = Some t -> nth_error c j = Some u -> (B2R (xs t) <= B2R (xs u))%R.
Proof. intros FC S L T U. apply fleb_R; [eapply located_x; eassumption|eapply located_x; eassumption|]. exact (S i j t u L T U). Qed.
(** Traces t, u whose sources, and those of the traces that follow them, are within the
    limit of one another. *)
Definition close (d : F) (t t' u u' : shot) : Prop := not_below d t u /\ not_below d u t /\ not_above d t' u /\ not_above d u' t.
Lemma located_f c t k : Forall located c -> nth_error c k = Some t -> ffin (xs t).
Proof. exact (located_x c t k). Qed.
Lemma update_compares ix dm c1 c2 file2 m r i t t' x j u u' : is_finite dm = true -> Forall located c1 -> Forall located c2 -> incl c2 file2 -> by_source c1 -> by_source c2 -> size c1 + 64 < two64 -> size c2 + 64 < two64 -> matched ix file2 c1 m -> update ix dm c1 c2 m = Some r ->
  nth_error c1 i = Some t -> nth_error c1 (S i) = Some t' -> nth_error r i = Some x -> nth_error c2 j = Some u -> nth_error c2 (S j) = Some u' -> close dm t t' u u' -> fltb (dval ix t u) (snd x) = false.
Proof.
  intros D F1 F2 IC S1 S2 B1 B2 M H T T' X U U' (C1 & C2 & C3 & C4). change (ffin dm) in D. unfold update in H. destruct (window dm c1 c2) as [w|] eqn:W; [|discriminate H]. apply window_parts in W. destruct W as (rs & re & ls & le & -> & H1 & H2 & H3 & H4). cbn [obind] in H. injection H as <-.
  assert (L1 : (S i < length c1)%nat) by (apply nth_error_Some; congruence). assert (L2 : (S j < length c2)%nat) by (apply nth_error_Some; congruence). assert (TE : two64 = 18446744073709551616) by reflexivity.
  assert (N1 : c1 <> []) by (intros ->; cbn in L1; lia). assert (N2 : c2 <> []) by (intros ->; cbn in L2; lia).
  destruct (first_ok c1 N1) as (a1 & A1 & XA1). destruct (last_ok c1 N1 B1) as (b1 & E1 & U1 & Y1). rewrite XA1 in H1. rewrite U1, Y1 in H2.
  pose proof (located_f c1 _ _ F1 T) as FT. pose proof (located_f c1 _ _ F1 T') as FT'. pose proof (located_f c2 _ _ F2 U) as FU. pose proof (located_f c2 _ _ F2 U') as FU'. pose proof (located_f c1 _ _ F1 A1) as FA1. pose proof (located_f c1 _ _ F1 E1) as FB1.
  pose proof (proj1 (climb_range _ _ _ _ _ H1)) as R1. apply (climb_low _ _ _ _ _ (Z.of_nat j)) in H1; [|lia|unfold size; lia|].
  2:{ rewrite (xat_nth c2 j u U). unfold below. cbn [obind]. f_equal. apply (not_below_mono dm u t u a1); try assumption; [lra|]. apply (sorted_R c1 0 i); try assumption; lia. }
  apply (descend_high _ _ _ _ _ (Z.of_nat (S j))) in H2; [|lia|unfold size in *; lia|lia|unfold size; lia|].
  2:{ rewrite (xat_nth c2 (S j) u' U'). unfold above. cbn [obind]. f_equal. apply (not_above_mono dm u' t u' b1); try assumption; [lra|]. apply (sorted_R c1 i (length c1 - 1)); try assumption; lia. }
  destruct (xat_in c2 rs ltac:(unfold size; lia)) as (v & V & XV). rewrite XV in H3. pose proof (located_f c2 _ _ F2 V) as FV.
  pose proof (proj1 (climb_range _ _ _ _ _ H3)) as R3. apply (climb_low _ _ _ _ _ (Z.of_nat i)) in H3; [|lia|unfold size; lia|].
  2:{ rewrite (xat_nth c1 i t T). unfold below. cbn [obind]. f_equal. apply (not_below_mono dm t u t v); try assumption; [lra|]. apply (sorted_R c2 (Z.to_nat rs) j); try assumption; lia. }
  destruct (xat_in c2 (re - 1) ltac:(lia)) as (w & WN & XW). rewrite u64_small in H4 by (unfold in_u64; unfold size in *; lia). rewrite XW in H4. pose proof (located_f c2 _ _ F2 WN) as FW.
  apply (descend_high _ _ _ _ _ (Z.of_nat (S i))) in H4; [|lia|unfold size in *; lia|lia|unfold size; lia|].
  2:{ rewrite (xat_nth c1 (S i) t' T'). unfold above. cbn [obind]. f_equal. apply (not_above_mono dm t' u t' w); try assumption; [lra|]. apply (sorted_R c2 j (Z.to_nat (re - 1))); try assumption; lia. }
  destruct (matched_pos ix file2 c1 m M) as (LM & PM). destruct (nth_error m i) as [y|] eqn:Y; [|apply nth_error_None in Y; lia].
  rewrite (scan_all_nth _ _ _ _ _ _ _ _ _ _ T Y) in X. pose proof (Z.div_mod ls 32 ltac:(lia)). pose proof (Z.mod_pos_bound ls 32 ltac:(lia)).
  destruct (Z.leb_spec (ls / 32 * 32) (0 + Z.of_nat i)); [|lia]. destruct (Z.ltb_spec (0 + Z.of_nat i) le); [|lia]. cbn [andb] in X. injection X as <-.
  assert (LT : located t) by (rewrite Forall_forall in F1; apply F1; eapply nth_error_In, T). assert (PY : pos (snd y)) by (rewrite Forall_forall in PM; apply PM; eapply nth_error_In, Y).
  refine (proj1 (proj2 (proj2 (scan_ok ix t LT _ y _ PY))) u _); [apply Forall_forall; intros z Z; apply sub_in in Z; rewrite Forall_forall in F2; apply F2, Z|]. apply (nth_sub c2 _ _ j u U). clear - H1 R1 H2. destruct H2 as (H2 & _). lia.
Qed.
Lemma Forall2_at {A B} (P : A -> B -> Prop) : forall l l' k x y, Forall2 P l l' -> nth_error l k = Some x -> nth_error l' k = Some y -> P x y.
Proof. intros l l' k x y H. revert k. induction H as [|a b l l' HP H IH]; intros [|k] X Y; try discriminate X; cbn in X, Y; [congruence|eauto]. Qed.
Theorem C71_compared_partial : forall chk ix dm c1 mine cs m, is_finite dm = true -> Forall located c1 -> Forall located (concat cs) -> incl mine (concat cs) -> by_source c1 -> (forall c, In c cs -> by_source c /\ size c + 64 < two64) -> size c1 + 64 < two64 ->
  calc4DBin chk ix dm c1 mine cs = Some m ->
  forall i t t' x c j u u', nth_error c1 i = Some t -> nth_error c1 (S i) = Some t' -> nth_error m i = Some x -> In c cs -> nth_error c j = Some u -> nth_error c (S j) = Some u' -> close dm t t' u u' ->
  fltb (dval ix t u) (snd x) = false.
Proof.
  intros chk ix dm c1 mine cs m D F1 F2 I S1 CS B1 H i t t' x c j u u' T T' X IC U U' CL. change (ffin dm) in D. apply calc_parts in H. destruct H as (es & lmin & lmax & m0 & O & X1 & E3 & R). apply (init_matched ix c1 mine (concat cs)) in E3; try assumption.
  assert (FC : forall c, In c cs -> Forall located c) by (intros z Z; apply Forall_forall; intros v V; rewrite Forall_forall in F2; apply F2, in_concat; exists z; split; assumption). specialize (FC c IC) as F2c. destruct (CS c IC) as (S2 & B2).
  assert (L1 : (S i < length c1)%nat) by (apply nth_error_Some; congruence). assert (L2 : (S j < length c)%nat) by (apply nth_error_Some; congruence).
  assert (N1 : c1 <> []) by (intros ->; cbn in L1; lia). assert (N2 : c <> []) by (intros ->; cbn in L2; lia).
  destruct (extent_ok c1 N1 B1) as (a1 & b1 & A1 & E1 & EX1). rewrite EX1 in X1. injection X1 as <- <-. destruct (extent_ok c N2 B2) as (a2 & b2 & A2 & E2 & EX2).
  pose proof (located_f c1 _ _ F1 T) as FT. pose proof (located_f c1 _ _ F1 T') as FT'. pose proof (located_f c _ _ F2c U) as FU. pose proof (located_f c1 _ _ F1 A1) as FA1. pose proof (located_f c1 _ _ F1 E1) as FB1. pose proof (located_f c _ _ F2c A2) as FA2. pose proof (located_f c _ _ F2c E2) as FB2.
  assert (AC : In c (map fst (filter (fun ce => active dm (xs a1) (xs b1) (snd ce)) (combine cs es)))).
  { apply (in_actives _ cs es c (xs a2, xs b2)); try assumption. destruct CL as (C1 & C2 & C3 & C4). unfold active. cbn [fst snd]. rewrite fleb_num by (try apply sub_num; try apply FourDProofs.fin_num; assumption). rewrite (fleb_num (xs a1)) by (try apply (add_ext _ _ FB2 D); apply FourDProofs.fin_num; assumption).
    assert (Q1 : not_below dm b1 a2). { apply (not_below_mono dm t u b1 a2); try assumption; [apply (sorted_R c1 i (length c1 - 1)); try assumption; lia|apply (sorted_R c 0 j); try assumption; lia]. }
    assert (Q2 : not_above dm a1 b2). { apply (not_above_mono dm t' u a1 b2); try assumption; [apply (sorted_R c1 0 (S i)); try assumption; lia|apply (sorted_R c j (length c - 1)); try assumption; lia]. }
    unfold not_below in Q1. unfold not_above in Q2. rewrite Q1, Q2. reflexivity. }
  assert (SUB : forall z, In z (map fst (filter (fun ce => active dm (xs a1) (xs b1) (snd ce)) (combine cs es))) -> incl z (concat cs)) by (intros z Z v V; apply actives_in in Z; apply in_concat; exists z; split; assumption).
  revert m0 E3 R SUB AC. generalize (map fst (filter (fun ce => active dm (xs a1) (xs b1) (snd ce)) (combine cs es))). induction l as [|z l IH]; intros m0 M R SUB AC; [destruct AC|]. cbn [rounds] in R.
  destruct (getCoordsWin chk z) as [z'|] eqn:G; [|discriminate R]. cbn [obind] in R. assert (z' = z) as -> by (unfold getCoordsWin in G; destruct (chk && _); congruence). destruct (update ix dm c1 z m0) as [m1|] eqn:UP; [|discriminate R]. cbn [obind] in R.
  pose proof (SUB z (or_introl eq_refl)) as IZ. assert (FZ : Forall located z) by (apply Forall_forall; intros v V; rewrite Forall_forall in F2; apply F2, IZ, V). destruct (update_matched ix dm c1 z (concat cs) m0 m1 IZ FZ F1 M UP) as (M1 & _).
  destruct AC as [->|AC]; [|apply (IH m1 M1 R); [intros; apply SUB; right; assumption|exact AC]].
  destruct (rounds_matched chk ix dm c1 (concat cs) F1 F2 l m1 m ltac:(intros; apply SUB; right; assumption) M1 R) as (MF & IF).
  destruct (matched_pos _ _ _ _ M1) as (LM & PM). destruct (nth_error m1 i) as [y|] eqn:Y; [|apply nth_error_None in Y; lia].
  pose proof (update_compares ix dm c1 c (concat cs) m0 m1 i t t' y j u u' D F1 F2c IZ S1 S2 B1 B2 M UP T T' Y U U' CL) as Q.
  pose proof (Forall2_at _ _ _ i y x IF Y X) as IM. destruct (matched_pos _ _ _ _ MF) as (LF & PF). rewrite Forall_forall in PM, PF. apply (fltb_trans_false _ (snd y)); [|apply (PM y); eapply nth_error_In, Y|apply (PF x); eapply nth_error_In, X|exact Q|exact IM].
  apply dval_pos; [rewrite Forall_forall in F1; apply F1; eapply nth_error_In, T|rewrite Forall_forall in F2c; apply F2c; eapply nth_error_In, U].
Qed.
Print Assumptions C71_compared_partial.
Example ex_compared : let dm := f_of_Z 6 in let c := [at_ 0 0 0 10 0; at_ 1 5 0 15 0; at_ 2 9 0 19 0] in
  close dm (nth 0 c (at_ 0 0 0 0 0)) (nth 1 c (at_ 0 0 0 0 0)) (nth 0 c (at_ 0 0 0 0 0)) (nth 1 c (at_ 0 0 0 0 0)) /\ option_map (map fst) (calc4DBin false false dm c c [c]) = Some [0; 1; 0].
Proof. cbv zeta. split; [repeat split; vm_compute; reflexivity|vm_compute; reflexivity]. Qed.
