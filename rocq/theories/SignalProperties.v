(** C68-C70, C76, C80-C82: tapers, gain control, gain functions, temporal filters. *)
From Coq Require Import Reals Lra Lia Permutation Sorted.
From Flocq Require Import Core IEEE754.BinarySingleNaN.
From Verif Require Import Base DecompProofs DataIOModel DataIOProofs FloatModel FloatProofs SortSpec SortProofs SignalModel SignalSpec SignalProofs.
Import ListNotations.
Open Scope Z_scope.

(** ---- C68 ---- *)
(** A trace is a muted part z followed by a live sample x and the rest t.  Both ramps
    shorter than the trace; a release build. *)
Theorem C68_taper_partial : forall fn z x t l r, let s := z ++ x :: t in let n := zlen (x :: t) in
  Forall muted z -> live x -> 0 <= l < zlen s -> 0 <= r < zlen s -> zlen s < two64 - 1 ->
  taper false fn s l r = Done (z ++ imap (tapered fn n (Z.min l n) (Z.min r n)) 0 (x :: t)).
Proof.
  intros fn z x t l r s n MZ LX L R M. unfold taper.
  assert (NS : zlen s = zlen z + n) by (unfold s, n, zlen; rewrite app_length; lia). pose proof (zlen_nonneg z) as PZ. assert (PN : 1 <= n) by (unfold n, zlen; cbn [length]; lia).
  assert (LOOP : forall l r, 0 <= l <= n -> 0 <= r <= n -> taper_loops fn (x :: t) l r = Done (imap (tapered fn n l r) 0 (x :: t))) by (intros; apply taper_loops_spec; fold n; lia).
  destruct z as [|y z].
  - cbn [app] in *. change (zlen []) with 0 in NS. assert (EX : feqb x f0 = false) by exact LX. unfold s. cbn [taper_n]. rewrite EX. cbn [asserted andb app]. rewrite !Z.min_l by lia. apply LOOP; lia.
  - assert (EY : feqb y f0 = true) by (inversion MZ; assumption). assert (LZ : leading_zeros s = length (y :: z)) by (apply leading_zeros_app; assumption).
    assert (SK : skipn (leading_zeros s) s = x :: t) by (rewrite LZ; unfold s; rewrite skipn_app, skipn_all, Nat.sub_diag; reflexivity).
    assert (FI : firstn (leading_zeros s) s = y :: z) by (rewrite LZ; unfold s; rewrite firstn_app, firstn_all, Nat.sub_diag, app_nil_r; reflexivity).
    change (taper_n 2 false fn s l r) with (if feqb y f0 then (obnd (taper_n 1 false fn (skipn (leading_zeros s) s) (Z.min l (zlen (skipn (leading_zeros s) s))) (Z.min r (zlen (skipn (leading_zeros s) s)))) (fun t' => Done (firstn (leading_zeros s) s ++ t'))) else taper_loops fn s l r).
    rewrite EY, SK, FI. fold n. cbn [taper_n]. assert (EX : feqb x f0 = false) by exact LX. rewrite EX. cbn [asserted andb]. rewrite LOOP by lia. reflexivity.
Qed.
Print Assumptions C68_taper_partial.
(** Samples between the ramps keep their value. *)
Theorem C68_between_ramps : forall fn n l r i v, l <= i < n - r -> tapered fn n l r i v = v.
Proof. intros fn n l r i v I. unfold tapered. destruct (Z.ltb_spec i l), (Z.leb_spec (n - r) i); try lia. reflexivity. Qed.
Print Assumptions C68_between_ramps.
(** In a debug build the same holds if the live part is longer than both ramps. *)
Theorem C68_debug_partial : forall fn z x t l r, let s := z ++ x :: t in let n := zlen (x :: t) in
  Forall muted z -> live x -> 0 <= l < n -> 0 <= r < n -> zlen s < two64 - 1 ->
  taper true fn s l r = Done (z ++ imap (tapered fn n l r) 0 (x :: t)).
Proof.
  intros fn z x t l r s n MZ LX L R M. unfold taper.
  assert (NS : zlen s = zlen z + n) by (unfold s, n, zlen; rewrite app_length; lia). pose proof (zlen_nonneg z) as PZ.
  assert (LOOP : forall l r, 0 <= l <= n -> 0 <= r <= n -> taper_loops fn (x :: t) l r = Done (imap (tapered fn n l r) 0 (x :: t))) by (intros; apply taper_loops_spec; fold n; lia).
  assert (EX : feqb x f0 = false) by exact LX.
  assert (A1 : forall fuel, taper_n (S fuel) true fn (x :: t) l r = Done (imap (tapered fn n l r) 0 (x :: t))).
  { intros fuel. cbn [taper_n]. rewrite EX. fold n. destruct (Z.ltb_spec l n), (Z.ltb_spec r n); try lia. cbn [asserted andb negb]. apply LOOP; lia. }
  destruct z as [|y z].
  - cbn [app] in *. unfold s. apply A1.
  - assert (EY : feqb y f0 = true) by (inversion MZ; assumption). assert (LZ : leading_zeros s = length (y :: z)) by (apply leading_zeros_app; assumption).
    assert (SK : skipn (leading_zeros s) s = x :: t) by (rewrite LZ; unfold s; rewrite skipn_app, skipn_all, Nat.sub_diag; reflexivity).
    assert (FI : firstn (leading_zeros s) s = y :: z) by (rewrite LZ; unfold s; rewrite firstn_app, firstn_all, Nat.sub_diag, app_nil_r; reflexivity).
    change (taper_n 2 true fn s l r) with (asserted true ((l <? zlen s) && (r <? zlen s)) (if feqb y f0 then match skipn (leading_zeros s) s with [] => Undefined | _ => (obnd (taper_n 1 true fn (skipn (leading_zeros s) s) (Z.min l (zlen (skipn (leading_zeros s) s))) (Z.min r (zlen (skipn (leading_zeros s) s)))) (fun t' => Done (firstn (leading_zeros s) s ++ t'))) end else taper_loops fn s l r)).
    destruct (Z.ltb_spec l (zlen s)), (Z.ltb_spec r (zlen s)); try lia. cbn [asserted andb negb]. rewrite EY, SK, FI. fold n. rewrite !Z.min_l by lia. rewrite A1. reflexivity.
Qed.
Print Assumptions C68_debug_partial.
(** But if the live part is not longer than a ramp, a debug build stops the program. *)
Theorem C68_debug_refuted : forall fn z x t l r, let s := z ++ x :: t in z <> [] ->
  Forall muted z -> live x -> 0 <= l < zlen s -> 0 <= r < zlen s -> zlen (x :: t) <= l -> taper true fn s l r = Abort.
Proof.
  intros fn z x t l r s NZ MZ LX L R C. unfold taper. destruct z as [|y z]; [congruence|].
  assert (EY : feqb y f0 = true) by (inversion MZ; assumption). assert (LZ : leading_zeros s = length (y :: z)) by (apply leading_zeros_app; assumption).
  assert (SK : skipn (leading_zeros s) s = x :: t) by (rewrite LZ; unfold s; rewrite skipn_app, skipn_all, Nat.sub_diag; reflexivity).
  change (taper_n 2 true fn s l r) with (asserted true ((l <? zlen s) && (r <? zlen s)) (if feqb y f0 then match skipn (leading_zeros s) s with [] => Undefined | _ => (obnd (taper_n 1 true fn (skipn (leading_zeros s) s) (Z.min l (zlen (skipn (leading_zeros s) s))) (Z.min r (zlen (skipn (leading_zeros s) s)))) (fun t' => Done (firstn (leading_zeros s) s ++ t'))) end else taper_loops fn s l r)).
  destruct (Z.ltb_spec l (zlen s)), (Z.ltb_spec r (zlen s)); try lia. cbn [asserted andb negb]. rewrite EY, SK. rewrite (Z.min_r l) by lia. cbn [taper_n]. destruct (Z.ltb_spec (zlen (x :: t)) (zlen (x :: t))); [lia|]. reflexivity.
Qed.
Print Assumptions C68_debug_refuted.
(** A trace that is muted throughout makes the call read past its end. *)
Theorem C68_dead_trace_refuted : forall dbg fn s l r, s <> [] -> Forall muted s -> 0 <= l < zlen s -> 0 <= r < zlen s -> taper dbg fn s l r = Undefined.
Proof.
  intros dbg fn s l r NS MS L R. unfold taper. destruct s as [|y s]; [congruence|]. assert (EY : feqb y f0 = true) by (inversion MS; assumption).
  cbn [taper_n]. rewrite EY, (leading_zeros_all (y :: s)) by exact MS. rewrite skipn_all. destruct (Z.ltb_spec l (zlen (y :: s))), (Z.ltb_spec r (zlen (y :: s))); try lia. cbn [andb negb asserted]. unfold asserted. rewrite Bool.andb_false_r. destruct dbg; reflexivity.
Qed.
Print Assumptions C68_dead_trace_refuted.
(** Blocks: every trace is tapered on its own. *)
Theorem C68_block : forall dbg fn l r traces out, set_taper dbg fn l r traces = Done out <-> Forall2 (fun t t' => taper dbg fn t l r = Done t') traces out.
Proof.
  intros dbg fn l r. unfold set_taper. induction traces as [|t ts IH]; intros out; cbn [traces_each].
  - split; [intros H; injection H as <-; constructor|intros H; inversion H; reflexivity].
  - destruct (taper dbg fn t l r) as [t'| |] eqn:E; cbn [obnd].
    + destruct (traces_each (fun t0 => taper dbg fn t0 l r) ts) as [ts'| |] eqn:E2; cbn [obnd].
      * split; [intros H; injection H as <-; constructor; [exact E|apply IH; reflexivity]|]. intros H. inversion H as [|? u ? us HU HS]; subst. assert (u = t') by congruence. apply IH in HS. congruence.
      * split; [intros H; discriminate H|]. intros H. inversion H as [|? u ? us HU HS]; subst. apply IH in HS. discriminate HS.
      * split; [intros H; discriminate H|]. intros H. inversion H as [|? u ? us HU HS]; subst. apply IH in HS. discriminate HS.
    + split; [intros H; discriminate H|]. intros H. inversion H as [|? u ? us HU HS]; subst. congruence.
    + split; [intros H; discriminate H|]. intros H. inversion H as [|? u ? us HU HS]; subst. congruence.
Qed.
Print Assumptions C68_block.
Definition ints (l : list Z) : list F := map f_of_Z l.
Definition shown {A} (o : outcome (list A)) (f : A -> SpecFloat.spec_float) : option (list SpecFloat.spec_float) := match o with Done l => Some (map f l) | _ => None end.
Example C68_demo : Forall muted (ints [0; 0]) /\ live (f_of_Z 8) /\
  shown (taper false linear_taper (ints [0; 0; 8; 8; 8; 8; 8; 8]) 2 4) B2SF = Some (map (@B2SF _ _) (ints [0; 0; 4; 8; 8; 6; 4; 2])) /\
  taper true linear_taper (ints [0; 0; 0; 8; 8]) 4 1 = Abort /\ taper false linear_taper (ints [0; 0; 0]) 1 1 = Undefined.
Proof. split; [repeat constructor|]. split; [reflexivity|]. split; [vm_compute; reflexivity|]. split; vm_compute; reflexivity. Qed.

(** ---- C82 ---- *)
Lemma rnd_le x y : (x <= y)%R -> (rnd x <= rnd y)%R.
Proof. intros H. apply round_le; [apply fexp_correct; reflexivity|apply valid_rnd_round_mode|exact H]. Qed.
Lemma rnd_between x m n : Z.abs m <= two24 -> Z.abs n <= two24 -> (IZR m <= x <= IZR n)%R -> (IZR m <= rnd x <= IZR n)%R.
Proof. intros M N (A & B). rewrite <- (int_rnd m M), <- (int_rnd n N). split; apply rnd_le; assumption. Qed.
Lemma abs_correct a : ffin a -> ffin (fabs a) /\ B2R (fabs a) = Rabs (B2R a).
Proof. intros H. split; [unfold ffin, fabs; rewrite is_finite_Babs; exact H|apply B2R_Babs]. Qed.
Lemma small_bound x : (0 <= x <= 1)%R -> (Rabs x < bpow radix2 emax32)%R.
Proof. intros H. rewrite Rabs_pos_eq by lra. apply Rle_lt_trans with (bpow radix2 0); [cbn [bpow]; lra|apply bpow_lt; reflexivity]. Qed.
Lemma one_minus a v : ffin a -> B2R a = v -> (0 <= v <= 1)%R -> ffin (fsub (f_of_Z 1) a) /\ B2R (fsub (f_of_Z 1) a) = rnd (1 - v) /\ (0 <= rnd (1 - v) <= 1)%R.
Proof.
  intros FA VA H. destruct (of_Z_int 1) as (F1 & V1); [unfold two24; lia|]. pose proof (rnd_between (1 - v) 0 1 ltac:(unfold two24; lia) ltac:(unfold two24; lia) ltac:(cbn [IZR IPR]; lra)) as B.
  pose proof (Bminus_correct prec32 emax32 Hprec32 Hmax32 mode_NE (f_of_Z 1) a F1 FA) as C. rewrite V1, VA in C. rewrite Rlt_bool_true in C by (apply small_bound; exact B). destruct C as (C1 & C2 & _). split; [exact C2|]. split; [exact C1|exact B].
Qed.
Theorem C82_linear_taper : forall k w, 0 <= k <= w -> 0 < w <= two24 ->
  let v := linear_taper (f_of_Z k) (f_of_Z w) in
  is_finite v = true /\ (0 <= B2R v <= 1)%R /\ (k = w -> B2R v = 1%R) /\ (k = 0 -> B2R v = 0%R) /\
  (forall k', k <= k' <= w -> (B2R v <= B2R (linear_taper (f_of_Z k') (f_of_Z w)))%R).
Proof.
  assert (G : forall k w, 0 <= k <= w -> 0 < w <= two24 -> let d := rnd (IZR (k - w) / IZR w) in (-1 <= d <= 0)%R /\ ffin (linear_taper (f_of_Z k) (f_of_Z w)) /\ B2R (linear_taper (f_of_Z k) (f_of_Z w)) = rnd (1 + d) /\ (0 <= rnd (1 + d) <= 1)%R).
  { intros k w K W d. destruct (of_Z_int k) as (FK & VK); [lia|]. destruct (of_Z_int w) as (FW & VW); [lia|]. destruct (sub_int _ _ k w (conj FK VK) (conj FW VW)) as (FS & VS); [lia|].
    assert (WP : (0 < IZR w)%R) by (apply IZR_lt; lia). assert (D : (-1 <= IZR (k - w) / IZR w <= 0)%R).
    { assert (A1 : (IZR (- w) <= IZR (k - w))%R) by (apply IZR_le; lia). assert (A2 : (IZR (k - w) <= 0)%R) by (apply IZR_le; lia). rewrite opp_IZR in A1. split.
      - apply Rmult_le_reg_r with (IZR w); [exact WP|]. unfold Rdiv. rewrite Rmult_assoc, Rinv_l by lra. lra.
      - apply Rmult_le_reg_r with (IZR w); [exact WP|]. unfold Rdiv. rewrite Rmult_assoc, Rinv_l by lra. lra. }
    pose proof (rnd_between _ (-1) 0 ltac:(unfold two24; lia) ltac:(unfold two24; lia) D) as RB. fold d in RB. split; [exact RB|].
    destruct (div_correct (fsub (f_of_Z k) (f_of_Z w)) (f_of_Z w) FS FW) as (FD & VD).
    { rewrite VW. lra. }
    { rewrite VS, VW. fold d. rewrite <- Rabs_Ropp. apply small_bound. lra. }
    rewrite VS, VW in VD. fold d in VD. destruct (abs_correct _ FD) as (FB & VB). rewrite VD, Rabs_left1 in VB by lra.
    destruct (one_minus _ _ FB VB) as (F1 & V1 & B1); [lra|]. replace (1 - - d)%R with (1 + d)%R in * by lra. unfold linear_taper. auto. }
  intros k w K W v. destruct (G k w K W) as (D & FV & VV & BV). cbv zeta in *. split; [exact FV|]. unfold v. rewrite VV. split; [exact BV|]. split; [|split].
  - intros ->. replace (w - w) with 0 by lia. unfold Rdiv. rewrite Rmult_0_l. change 0%R with (IZR 0). rewrite (int_rnd 0) by (unfold two24; lia). replace (1 + IZR 0)%R with (IZR 1) by lra. rewrite (int_rnd 1) by (unfold two24; lia). reflexivity.
  - intros ->. assert (WP : (0 < IZR w)%R) by (apply IZR_lt; lia). replace (IZR (0 - w) / IZR w)%R with (IZR (-1)) by (replace (0 - w) with (- w) by lia; rewrite opp_IZR; field; lra). rewrite (int_rnd (-1)) by (unfold two24; lia). replace (1 + IZR (-1))%R with (IZR 0) by lra. apply int_rnd. unfold two24; lia.
  - intros k' K'. destruct (G k' w) as (D' & FV' & VV' & BV'); [lia|lia|]. rewrite VV'. apply rnd_le. apply Rplus_le_compat_l. apply rnd_le. apply Rmult_le_compat_r; [apply Rlt_le, Rinv_0_lt_compat, IZR_lt; lia|apply IZR_le; lia].
Qed.
Print Assumptions C82_linear_taper.
Example C82_demo : map (fun k => B2SF (linear_taper (f_of_Z k) (f_of_Z 4))) [0; 2; 4] = [B2SF f0; SpecFloat.S754_finite false 8388608 (-24); B2SF (f_of_Z 1)].
Proof. vm_compute. reflexivity. Qed.

(** ---- C69 ---- *)
Theorem C69_windows : forall dbg (g : gain_function) s w target G, let h := w / 2 in 0 <= w -> 2 * h + 1 < zlen s -> zlen s < two64 ->
  (forall j, 0 <= j < zlen s -> g (around h j s) target (Z.min j h) = Done (G j)) ->
  AGC dbg g s w target = Done (imap (fun j x => fmul x (G j)) 0 s).
Proof.
  intros dbg g s w target G h W N M H. unfold AGC.
  assert (E : (if w mod 2 =? 0 then u64 (w + 1) else w) = 2 * h + 1).
  { unfold h. pose proof (Z.div_mod w 2 ltac:(lia)) as D. pose proof (Z.mod_pos_bound w 2 ltac:(lia)). unfold h in N. destruct (Z.eqb_spec (w mod 2) 0); [rewrite u64_small by (unfold in_u64; lia)|]; lia. }
  cbv zeta. rewrite E. assert (H2 : (2 * h + 1) / 2 = h) by (symmetry; apply (Z.div_unique _ _ h 1); lia). rewrite H2. assert (HP : 0 <= h) by (unfold h; apply Z.div_pos; lia).
  destruct (Z.ltb_spec (2 * h + 1) (zlen s)); [|lia]. unfold asserted. rewrite Bool.andb_false_r. rewrite agc_steps_spec by lia. unfold zlen at 2. rewrite (agc_gains_spec g s target (fun j => let a := Z.max 0 (j - h) in (a, Z.min (zlen s) (j + h + 1) - a, j - a)) G).
  - cbn [obnd]. f_equal. rewrite <- (combine_imap G s (repeat f0 (length s)) 0) by apply repeat_length. f_equal. f_equal. apply imap_ext. intros i v I. unfold zlen in I. rewrite repeat_length in I. destruct (Z.ltb_spec i (Z.of_nat (length s))); [reflexivity|lia].
  - unfold zlen. rewrite repeat_length. lia.
  - intros j J. fold (zlen s) in J. cbn [fst snd]. exists (around h j s). rewrite around_slice by lia. split.
    + unfold window. destruct (Z.leb_spec 0 (Z.max 0 (j - h))), (Z.leb_spec 0 (Z.min (zlen s) (j + h + 1) - Z.max 0 (j - h))), (Z.leb_spec (Z.max 0 (j - h) + (Z.min (zlen s) (j + h + 1) - Z.max 0 (j - h))) (zlen s)); try lia. reflexivity.
    + rewrite <- around_slice by lia. replace (j - Z.max 0 (j - h)) with (Z.min j h) by lia. apply H. exact J.
Qed.
Print Assumptions C69_windows.
(** The index given as centre is that of the sample itself. *)
Theorem C69_centre : forall {A} h j (s : list A), 0 <= h -> 0 <= j < zlen s -> nth_error (around h j s) (Z.to_nat (Z.min j h)) = nth_error s (Z.to_nat j).
Proof.
  intros A h j s H J. rewrite around_slice by assumption.
  assert (G : forall n k (l : list A), (k < n)%nat -> nth_error (firstn n l) k = nth_error l k).
  { clear. induction n as [|n IH]; intros k l K; [lia|]. destruct l as [|x l]; [rewrite firstn_nil; reflexivity|]. destruct k as [|k]; [reflexivity|]. cbn [firstn nth_error]. apply IH. lia. }
  rewrite G by lia. assert (K : forall n k (l : list A), nth_error (skipn n l) k = nth_error l (n + k)).
  { clear. induction n as [|n IH]; intros k l; [reflexivity|]. destruct l as [|x l]; [cbn; destruct k; reflexivity|]. cbn [skipn Nat.add nth_error]. apply IH. }
  rewrite K. f_equal. lia.
Qed.
Print Assumptions C69_centre.
(** A window at least as long as the trace is refused in a debug build. *)
Theorem C69_too_long : forall (g : gain_function) s w target, let h := w / 2 in 0 <= w < two64 - 1 -> zlen s <= 2 * h + 1 -> AGC true g s w target = Abort.
Proof.
  intros g s w target h W N. unfold AGC. cbv zeta.
  assert (E : (if w mod 2 =? 0 then u64 (w + 1) else w) = 2 * h + 1).
  { unfold h. pose proof (Z.div_mod w 2 ltac:(lia)) as D. pose proof (Z.mod_pos_bound w 2 ltac:(lia)). destruct (Z.eqb_spec (w mod 2) 0); [rewrite u64_small by (unfold in_u64; lia)|]; lia. }
  rewrite E. destruct (Z.ltb_spec (2 * h + 1) (zlen s)); [lia|]. reflexivity.
Qed.
Print Assumptions C69_too_long.
Example C69_demo : map (fun j => around 1 j [10; 20; 30; 40; 50]) [0; 2; 4] = [[10; 20]; [20; 30; 40]; [40; 50]] /\
  shown (AGC true (fun w _ c => Done (f_of_Z (zlen w * 10 + c))) (ints [1; 1; 1; 1; 1]) 2 f0) B2SF = Some (map (@B2SF _ _) (ints [20; 31; 31; 31; 21])).
Proof. split; vm_compute; reflexivity. Qed.
