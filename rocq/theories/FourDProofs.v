From Coq Require Import Reals Lra Lia.
From Flocq Require Import Core IEEE754.BinarySingleNaN.
From Verif Require Import Base DecompProofs FloatModel FloatProofs FourDModel FourDSpec.
Import ListNotations.
Open Scope Z_scope.

(** ---- Distances are never NaN nor negative ---- *)
Definition pos (x : F) : Prop := is_nan x = false /\ Bsign x = false.
Lemma over_inf (x : F) s : B2SF x = binary_overflow prec32 emax32 mode_NE s -> x = B754_infinity s.
Proof. intros H. apply B2SF_inj. rewrite H. reflexivity. Qed.
Lemma fin_num (x : F) : is_finite x = true -> is_nan x = false. Proof. destruct x; intros H; try reflexivity; discriminate H. Qed.
Lemma sub_num a b : is_finite a = true -> is_finite b = true -> is_nan (fsub a b) = false.
Proof.
  intros A B. pose proof (Bminus_correct prec32 emax32 Hprec32 Hmax32 mode_NE a b A B) as C. fold (fsub a b) in C. destruct (Rlt_bool _ _).
  - apply fin_num, C.
  - destruct C as (C & _). rewrite (over_inf _ _ C). reflexivity.
Qed.
Lemma sqr_pos x : is_nan x = false -> pos (fmul x x).
Proof.
  intros N. destruct (is_finite x) eqn:FX.
  - pose proof (Bmult_correct prec32 emax32 Hprec32 Hmax32 mode_NE x x) as C. fold (fmul x x) in C. destruct (Rlt_bool _ _).
    + destruct C as (_ & FF & SG). rewrite FX in FF. cbn [andb] in FF. split; [apply fin_num, FF|]. rewrite SG by (apply fin_num, FF). apply xorb_nilpotent.
    + rewrite xorb_nilpotent in C. rewrite (over_inf _ _ C). split; reflexivity.
  - destruct x as [| s | |]; try discriminate FX; try discriminate N. destruct s; split; reflexivity.
Qed.
Lemma pos_B2R (x : F) : pos x -> (0 <= B2R x)%R.
Proof. intros (_ & S). destruct x as [| | |s m e B]; cbn [B2R]; try lra. cbn [Bsign] in S. subst s. apply F2R_ge_0. cbn. lia. Qed.
Lemma add_pos a b : pos a -> pos b -> pos (fadd a b).
Proof.
  intros PA PB. pose proof (pos_B2R a PA) as VA. pose proof (pos_B2R b PB) as VB. destruct (is_finite a) eqn:FA, (is_finite b) eqn:FB.
  - pose proof (Bplus_correct prec32 emax32 Hprec32 Hmax32 mode_NE a b FA FB) as C. fold (fadd a b) in C. destruct PA as (_ & SA), PB as (_ & SB). destruct (Rlt_bool _ _).
    + destruct C as (_ & FF & SG). split; [apply fin_num, FF|]. rewrite SG, SA, SB. destruct (Rcompare_spec (B2R a + B2R b) 0); [lra|reflexivity|reflexivity].
    + destruct C as (C & _). rewrite SA in C. rewrite (over_inf _ _ C). split; reflexivity.
  - destruct PB as (NB & SB). destruct b as [| s | |]; try discriminate FB; try discriminate NB. cbn [Bsign] in SB. subst s. destruct a as [| | |]; try discriminate FA; split; reflexivity.
  - destruct PA as (NA & SA). destruct a as [| s | |]; try discriminate FA; try discriminate NA. cbn [Bsign] in SA. subst s. destruct b as [| | |]; try discriminate FB; split; reflexivity.
  - destruct PA as (NA & SA), PB as (NB & SB). destruct a as [| s | |]; try discriminate FA; try discriminate NA. destruct b as [| s' | |]; try discriminate FB; try discriminate NB. cbn [Bsign] in SA, SB. subst s s'. split; reflexivity.
Qed.
Lemma sqrt_pos' a : pos a -> pos (fsqrt a).
Proof.
  intros (N & S). destruct a as [s|s| |s m e B]; try discriminate N; cbn [Bsign] in S; subst s; try (split; reflexivity).
  pose proof (Bsqrt_correct prec32 emax32 Hprec32 Hmax32 mode_NE (B754_finite false m e B)) as (_ & FF & SG). fold (fsqrt (B754_finite false m e B)) in *. split; [apply fin_num, FF|]. rewrite SG; [reflexivity|apply fin_num, FF].
Qed.
Lemma hypot_pos x y : is_nan x = false -> is_nan y = false -> pos (hypot x y).
Proof. intros X Y. apply sqrt_pos', add_pos; apply sqr_pos; assumption. Qed.
Lemma dsr_pos t u : located t -> located u -> pos (dsr t u).
Proof.
  intros (A1 & A2 & A3 & A4) (B1 & B2 & B3 & B4). unfold dsr, fmin. match goal with |- pos (if ?c then _ else _) => destruct c end; apply add_pos; apply hypot_pos; apply sub_num; assumption.
Qed.
Lemma fmax_fin : is_finite fmax = true. Proof. vm_compute. reflexivity. Qed.
Lemma fmax_sign : Bsign fmax = false. Proof. vm_compute. reflexivity. Qed.
Lemma fmax_pos : pos fmax. Proof. split; [apply fin_num, fmax_fin|apply fmax_sign]. Qed.
Lemma dval_pos ix t u : located t -> located u -> pos (dval ix t u).
Proof. intros A B. unfold dval. destruct (negb ix || _); [apply dsr_pos; assumption|apply fmax_pos]. Qed.
Lemma pos_eq (a b : F) : pos a -> pos b -> fltb a b = false -> fltb b a = false -> a = b.
Proof.
  intros (NA & SA) (NB & SB) L1 L2.
  assert (E : fext a = fext b). { destruct (Rtotal_order (fext a) (fext b)) as [L|[E|G]]; [|exact E|]; exfalso; [apply (fltb_spec a b NA NB) in L; congruence|apply (fltb_spec b a NB NA) in G; congruence]. }
  pose proof (ffin_bound a) as BA. pose proof (ffin_bound b) as BB. destruct (fnum_cases a NA) as [FA|(s & ->)], (fnum_cases b NB) as [FB|(s' & ->)].
  - rewrite !fext_fin in E by assumption. apply B2R_Bsign_inj; try assumption. congruence.
  - rewrite fext_fin in E by assumption. unfold fext in E. cbn [Bsign] in SB. subst s'. exfalso. lra.
  - rewrite (fext_fin b FB) in E. unfold fext in E. cbn [Bsign] in SA. subst s. exfalso. lra.
  - cbn [Bsign] in SA, SB. congruence.
Qed.
Lemma fltb_trans_false (a b c : F) : is_nan a = false -> is_nan b = false -> is_nan c = false -> fltb a b = false -> fltb b c = false -> fltb a c = false.
Proof.
  intros A B C AB BC. destruct (fltb a c) eqn:E; [|reflexivity]. exfalso. apply (fltb_spec a c A C) in E.
  assert (NA : ~ (fext a < fext b)%R) by (intros X; apply (fltb_spec a b A B) in X; congruence). assert (NB : ~ (fext b < fext c)%R) by (intros X; apply (fltb_spec b c B C) in X; congruence). lra.
Qed.
Lemma fltb_irrefl (a : F) : is_nan a = false -> fltb a a = false.
Proof. intros A. destruct (fltb a a) eqn:E; [|reflexivity]. apply (fltb_spec a a A A) in E. lra. Qed.
Lemma fleb_num a b : is_nan a = false -> is_nan b = false -> fleb a b = negb (fltb b a).
Proof.
  intros A B. unfold fleb, fltb, Bleb, Bltb, SpecFloat.SFleb, SpecFloat.SFltb. pose proof (Bcompare_swap prec32 emax32 a b) as S. unfold Bcompare in S. rewrite S. destruct (SpecFloat.SFcompare (B2SF a) (B2SF b)) as [[]|] eqn:C; try reflexivity.
  exfalso. revert C. destruct a as [|s| |sa]; try discriminate A; destruct b as [|s'| |sb]; try discriminate B; try destruct s; try destruct s'; try destruct sa; try destruct sb; cbn [B2SF SpecFloat.SFcompare]; intros C; try discriminate C; destruct (Z.compare e e0); try discriminate C; try destruct (PArith.BinPos.Pos.compare_cont Eq m m0); discriminate C.
Qed.

(** ---- One trace ---- *)
Lemma scan_ok ix t : located t -> forall us m, Forall located us -> pos (snd m) ->
  let r := scan ix t us m in pos (snd r) /\ (r = m \/ genuine ix us t r) /\ nearest ix us t r /\ fltb (snd m) (snd r) = false.
Proof.
  intros T. induction us as [|u us IH]; intros m FA PM; cbn [scan fold_left].
  - repeat split; try apply PM; [left; reflexivity|intros u []|apply fltb_irrefl, PM].
  - pose proof (Forall_inv FA) as FU. pose proof (dval_pos ix t u T FU) as PD. set (d := dval ix t u) in *.
    set (m1 := ((if fltb d (snd m) then tn u else fst m), fmin d (snd m))).
    assert (P1 : pos (snd m1)) by (unfold m1, fmin; cbn [snd]; destruct (fltb (snd m) d); assumption).
    assert (M1 : (m1 = m \/ m1 = (tn u, d)) /\ fltb (snd m) (snd m1) = false /\ fltb d (snd m1) = false).
    { unfold m1, fmin. cbn [fst snd]. destruct (fltb d (snd m)) eqn:L, (fltb (snd m) d) eqn:G.
      - exfalso. apply (fltb_spec d (snd m)) in L; [|apply PD|apply PM]. apply (fltb_spec (snd m) d) in G; [|apply PM|apply PD]. lra.
      - split; [right; reflexivity|]. split; [exact G|apply fltb_irrefl, PD].
      - split; [left; destruct m; reflexivity|]. split; [apply fltb_irrefl, PM|exact L].
      - rewrite (pos_eq d (snd m) PD PM L G). split; [left; destruct m; reflexivity|]. split; apply fltb_irrefl, PM. }
    destruct M1 as (MC & ML & MD). specialize (IH m1 (Forall_inv_tail FA) P1). cbv zeta in IH. fold (scan ix t us m1) in *. destruct IH as (RP & RG & RN & RL). fold d. fold m1. fold (scan ix t us m1).
    split; [exact RP|]. split; [|split].
    + destruct RG as [E|(v & V & G)]; [|right; exists v; split; [right; exact V|exact G]]. rewrite E. destruct MC as [E2|E2]; [left; exact E2|right; rewrite E2; exists u; split; [left; reflexivity|split; reflexivity]].
    + intros v [<-|V]; [|apply RN, V]. fold d. apply (fltb_trans_false d (snd m1)); [apply PD|apply P1|apply RP|exact MD|exact RL].
    + apply (fltb_trans_false (snd m) (snd m1)); [apply PM|apply P1|apply RP|exact ML|exact RL].
Qed.

(** ---- All traces of a process ---- *)
Definition improves (m r : Z * F) : Prop := fltb (snd m) (snd r) = false.
Lemma scan_all_length ix lo hi us : forall c1 m i, length c1 = length m -> length (scan_all ix lo hi us i c1 m) = length m.
Proof. induction c1 as [|t c1 IH]; intros [|x m] i H; cbn in *; try reflexivity; try discriminate H. f_equal. apply IH. lia. Qed.
Lemma scan_all_nth ix lo hi us : forall c1 m i k t x, nth_error c1 k = Some t -> nth_error m k = Some x ->
  nth_error (scan_all ix lo hi us i c1 m) k = Some (if (lo <=? i + Z.of_nat k) && (i + Z.of_nat k <? hi) then scan ix t us x else x).
Proof.
  induction c1 as [|t c1 IH]; intros [|x m] i [|k] t' x' HC HM; try discriminate HC; try discriminate HM; cbn [scan_all nth_error] in *.
  - injection HC as ->. injection HM as ->. rewrite Z.add_0_r. reflexivity.
  - rewrite (IH m (i + 1) k t' x' HC HM). replace (i + 1 + Z.of_nat k) with (i + Z.of_nat (S k)) by lia. reflexivity.
Qed.
Lemma sub_in {A} (c : list A) a n x : In x (firstn n (skipn a c)) -> In x c.
Proof.
  intros H. assert (I1 : In x (skipn a c)). { rewrite <- (firstn_skipn n (skipn a c)). apply in_or_app. left. exact H. }
  rewrite <- (firstn_skipn a c). apply in_or_app. right. exact I1.
Qed.
Lemma nth_firstn {A} (l : list A) : forall n k, (k < n)%nat -> nth_error (firstn n l) k = nth_error l k.
Proof. induction l as [|x l IH]; intros [|n] [|k] H; try lia; cbn; try reflexivity. apply IH. lia. Qed.
Lemma nth_skipn {A} : forall a (l : list A) k, nth_error (skipn a l) k = nth_error l (a + k).
Proof. induction a as [|a IH]; intros [|x l] k; cbn; try reflexivity; [destruct k; reflexivity|apply IH]. Qed.
Lemma nth_sub {A} (c : list A) a n k x : nth_error c k = Some x -> (a <= k < a + n)%nat -> In x (firstn n (skipn a c)).
Proof.
  intros H K. apply nth_error_In with (k - a)%nat. rewrite nth_firstn by lia. rewrite nth_skipn. replace (a + (k - a))%nat with k by lia. exact H.
Qed.
(** The state after some rounds. *)
Definition matched (ix : bool) (file2 : list shot) (c1 : list shot) (m : list (Z * F)) : Prop := Forall2 (fun t x => genuine ix file2 t x /\ pos (snd x)) c1 m.
Lemma genuine_incl ix a b t m : incl a b -> genuine ix a t m -> genuine ix b t m.
Proof. intros I (u & U & G). exists u. split; [apply I, U|exact G]. Qed.
Lemma scan_all_matched ix lo hi us file2 : incl us file2 -> Forall located us -> forall c1 m i, Forall located c1 -> matched ix file2 c1 m -> matched ix file2 c1 (scan_all ix lo hi us i c1 m) /\ Forall2 improves m (scan_all ix lo hi us i c1 m).
Proof.
  intros I FU. induction c1 as [|t c1 IH]; intros m i FC M; inversion M as [|? x ? m' (G & P) M']; subst; cbn [scan_all]; [split; constructor|].
  destruct (IH m' (i + 1) (Forall_inv_tail FC) M') as (A & B). destruct (scan_ok ix t (Forall_inv FC) us x FU P) as (RP & RG & _ & RL).
  split; constructor; try assumption.
  - destruct ((lo <=? i) && (i <? hi)); [|split; assumption]. split; [|exact RP]. destruct RG as [->|RG]; [exact G|exact (genuine_incl ix us file2 t _ I RG)].
  - unfold improves. destruct ((lo <=? i) && (i <? hi)); [exact RL|apply fltb_irrefl, P].
Qed.
Lemma update_matched ix dm c1 c2 file2 m r : incl c2 file2 -> Forall located c2 -> Forall located c1 -> matched ix file2 c1 m -> update ix dm c1 c2 m = Some r -> matched ix file2 c1 r /\ Forall2 improves m r.
Proof.
  intros I F2 F1 M H. unfold update in H. destruct (window dm c1 c2) as [(((rs & re) & ls) & le)|]; [|discriminate H]. cbn [obind] in H. injection H as <-. apply scan_all_matched; try assumption.
  - intros x X. apply I. eapply sub_in, X.
  - apply Forall_forall. intros x X. rewrite Forall_forall in F2. apply F2. eapply sub_in, X.
Qed.
Lemma improves_refl ix file2 c1 m : matched ix file2 c1 m -> Forall2 improves m m.
Proof. intros H. induction H as [|t x c m (G & P) M IH]; constructor; [apply fltb_irrefl, P|exact IH]. Qed.
Lemma improves_trans ix file2 c1 : forall a b c, matched ix file2 c1 a -> matched ix file2 c1 b -> matched ix file2 c1 c -> Forall2 improves a b -> Forall2 improves b c -> Forall2 improves a c.
Proof.
  induction c1 as [|t c1 IH]; intros a b c A B C AB BC; inversion A as [|? xa ? a' (_ & PA) A']; inversion B as [|? xb ? b' (_ & PB) B']; inversion C as [|? xc ? c' (_ & PC) C']; subst; [constructor|].
  inversion AB; subst. inversion BC; subst. constructor; [|apply (IH a' b' c'); assumption]. apply (fltb_trans_false (snd xa) (snd xb)); try apply PA; try apply PB; try apply PC; assumption.
Qed.
Lemma rounds_matched chk ix dm c1 file2 : Forall located c1 -> Forall located file2 -> forall cs m r, (forall c, In c cs -> incl c file2) -> matched ix file2 c1 m -> rounds chk ix dm c1 cs m = Some r -> matched ix file2 c1 r /\ Forall2 improves m r.
Proof.
  intros F1 F2. induction cs as [|c cs IH]; intros m r I M H; cbn [rounds] in H; [injection H as <-; split; [exact M|exact (improves_refl ix file2 c1 m M)]|].
  unfold getCoordsWin in H. destruct (chk && _); [discriminate H|]. cbn [obind] in H. destruct (update ix dm c1 c m) as [m1|] eqn:U; [|discriminate H]. cbn [obind] in H.
  assert (IC : incl c file2) by (apply I; left; reflexivity). destruct (update_matched ix dm c1 c file2 m m1 IC) as (M1 & I1); try assumption. { apply Forall_forall. intros x X. rewrite Forall_forall in F2. apply F2, IC, X. }
  destruct (IH m1 r ltac:(intros c' C'; apply I; right; exact C') M1 H) as (M2 & I2). split; [exact M2|]. apply (improves_trans ix file2 c1 m m1 r); assumption.
Qed.
Lemma init_matched ix c1 mine file2 m : Forall located c1 -> Forall located file2 -> incl mine file2 -> initUpdate ix c1 mine = Some m -> matched ix file2 c1 m.
Proof.
  intros F1 F2 I H. unfold initUpdate in H. destruct mine as [|u us].
  - destruct c1; [injection H as <-; constructor|discriminate H].
  - injection H as <-. assert (IU : In u file2) by (apply I; left; reflexivity). rewrite Forall_forall in F2. induction c1 as [|t c1 IH]; constructor.
    + split; [exists u; split; [exact IU|split; reflexivity]|]. apply dval_pos; [exact (Forall_inv F1)|apply F2, IU].
    + apply IH. exact (Forall_inv_tail F1).
Qed.
(** ---- Loops ---- *)
Lemma climb_low fuel test : forall k hi r j, climb fuel test k hi = Some r -> k <= j -> j < hi -> test j = Some false -> r <= j.
Proof.
  induction fuel as [|fuel IH]; intros k hi r j H K J T; cbn [climb] in H; [discriminate H|]. destruct (Z.ltb_spec k hi); [|lia]. destruct (test k) as [[]|] eqn:E; cbn [obind] in H; try discriminate H.
  - destruct (Z.eq_dec k j) as [->|]; [congruence|]. apply (IH (k + 1) hi r j H); try assumption; lia.
  - injection H as <-. lia.
Qed.
Lemma climb_range fuel test : forall k hi r, climb fuel test k hi = Some r -> k <= r /\ (r <= hi \/ r = k).
Proof.
  induction fuel as [|fuel IH]; intros k hi r H; cbn [climb] in H; [discriminate H|]. destruct (Z.ltb_spec k hi); [|injection H as <-; lia]. destruct (test k) as [[]|] eqn:E; cbn [obind] in H; try discriminate H.
  - apply IH in H. lia.
  - injection H as <-. lia.
Qed.
Lemma descend_high fuel test : forall k lo r j, descend fuel test k lo = Some r -> 0 <= lo -> k < two64 -> lo <= j -> j <= k -> test j = Some false -> j <= r <= k.
Proof.
  induction fuel as [|fuel IH]; intros k lo r j H L KB J JK T; cbn [descend] in H; [discriminate H|]. destruct (Z.leb_spec lo k); [|lia]. destruct (test k) as [[]|] eqn:E; cbn [obind] in H; try discriminate H.
  - destruct (Z.eq_dec k j) as [->|]; [congruence|]. rewrite u64_small in H by (unfold in_u64; lia). destruct (IH (k - 1) lo r j H L) as (A & B); try assumption; lia.
  - injection H as <-. lia.
Qed.
