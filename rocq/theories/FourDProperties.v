(** C71, C83. *)
From Coq Require Import Reals Lra Lia.
From Flocq Require Import Core IEEE754.BinarySingleNaN.
From Verif Require Import Base DecompProofs FloatModel FloatProofs SignalProperties FourDModel FourDSpec FourDProofs.
Import ListNotations.
Open Scope Z_scope.

(** What is reported is genuine: the trace named is one of file 2, and the distance
    reported is its distance. *)
Lemma calc_parts chk ix dm c1 mine cs m : calc4DBin chk ix dm c1 mine cs = Some m ->
  exists es lmin lmax m0, omap extent cs = Some es /\ extent c1 = Some (lmin, lmax) /\ initUpdate ix c1 mine = Some m0 /\
  rounds chk ix dm c1 (map fst (filter (fun ce => active dm lmin lmax (snd ce)) (combine cs es))) m0 = Some m.
Proof.
  intros H. unfold calc4DBin in H. destruct (omap extent cs) as [es|] eqn:E1; [|discriminate H]. cbn [obind] in H. destruct (extent c1) as [(lmin & lmax)|] eqn:E2; [|discriminate H]. cbn [obind] in H. destruct (initUpdate ix c1 mine) as [m0|] eqn:E3; [|discriminate H]. cbn [obind] in H. exists es, lmin, lmax, m0. repeat split; auto.
Qed.
Lemma actives_in {B} f (cs : list (list shot)) (es : list B) c : In c (map fst (filter f (combine cs es))) -> In c cs.
Proof. intros H. apply in_map_iff in H. destruct H as ((c' & e) & <- & H). apply filter_In in H. destruct H as (H & _). apply in_combine_l in H. exact H. Qed.
Theorem C71_genuine_partial : forall chk ix dm c1 mine cs m, Forall located c1 -> Forall located (concat cs) -> incl mine (concat cs) -> calc4DBin chk ix dm c1 mine cs = Some m ->
  Forall2 (genuine ix (concat cs)) c1 m.
Proof.
  intros chk ix dm c1 mine cs m F1 F2 I H. apply calc_parts in H. destruct H as (es & lmin & lmax & m0 & _ & _ & E3 & R).
  apply (init_matched ix c1 mine (concat cs)) in E3; try assumption. destruct (rounds_matched chk ix dm c1 (concat cs) F1 F2 _ _ _ (fun c C x X => proj2 (in_concat cs x) (ex_intro _ c (conj (actives_in _ _ _ _ C) X))) E3 R) as (M & _).
  clear -M. induction M as [|t x c m (G & _) M IH]; constructor; assumption.
Qed.
Print Assumptions C71_genuine_partial.
(** ... and pairs further apart than dsrmax are not kept. *)
Theorem C71_kept_partial : forall chk ix dm c1 mine cs m, Forall located c1 -> Forall located (concat cs) -> incl mine (concat cs) -> calc4DBin chk ix dm c1 mine cs = Some m ->
  forall a b d, In (a, b, d) (kept dm c1 m) -> fleb d dm = true /\ exists t u, In t c1 /\ In u (concat cs) /\ a = tn t /\ b = tn u /\ d = dval ix t u.
Proof.
  intros chk ix dm c1 mine cs m F1 F2 I H a b d K. pose proof (C71_genuine_partial chk ix dm c1 mine cs m F1 F2 I H) as G. unfold kept in K. apply in_map_iff in K. destruct K as ((t & x) & E & K). apply filter_In in K. destruct K as (K & L). cbn [fst snd] in *. injection E as <- <- <-. split; [exact L|].
  assert (In t c1 /\ genuine ix (concat cs) t x) as (T & (u & U & E1 & E2)). { clear -G K. induction G as [|t' x' c m' G' GG IH]; [destruct K|]. destruct K as [K|K]; [injection K as <- <-; split; [left; reflexivity|exact G']|]. destruct (IH K) as (A & B). split; [right; exact A|exact B]. }
  exists t, u. repeat split; assumption.
Qed.
Print Assumptions C71_kept_partial.

(** ---- Without a limit, the nearest trace is found ---- *)
Definition unlimited : F := B754_infinity false.
Lemma sub_unl x : is_finite x = true -> fsub x unlimited = B754_infinity true. Proof. destruct x; intros H; try discriminate H; reflexivity. Qed.
Lemma add_unl x : is_finite x = true -> fadd x unlimited = B754_infinity false. Proof. destruct x; intros H; try discriminate H; reflexivity. Qed.
Lemma alloc_gt n : 0 <= n -> n < alloc n.
Proof. intros N. unfold alloc. pose proof (Z.div_mod (n + 32) 32 ltac:(lia)). pose proof (Z.mod_pos_bound (n + 32) 32 ltac:(lia)). lia. Qed.
Lemma alloc_le n : 0 <= n -> alloc n <= n + 32.
Proof. intros N. unfold alloc. pose proof (Z.div_mod (n + 32) 32 ltac:(lia)). pose proof (Z.mod_pos_bound (n + 32) 32 ltac:(lia)). lia. Qed.
Lemma size_nn c : 0 <= size c. Proof. unfold size. lia. Qed.
Lemma xat_in c k : 0 <= k < size c -> exists t, nth_error c (Z.to_nat k) = Some t /\ xat c k = Some (xs t).
Proof.
  intros K. unfold xat, size in *. destruct (Z.ltb_spec k 0); [lia|]. destruct (Z.ltb_spec k (Z.of_nat (length c))); [|lia]. destruct (nth_error c (Z.to_nat k)) as [t|] eqn:E; [exists t; split; reflexivity|]. apply nth_error_None in E. lia.
Qed.
Lemma xat_nth c k t : nth_error c k = Some t -> xat c (Z.of_nat k) = Some (xs t).
Proof. intros H. assert (L : (k < length c)%nat) by (apply nth_error_Some; congruence). unfold xat, size. destruct (Z.ltb_spec (Z.of_nat k) 0); [lia|]. destruct (Z.ltb_spec (Z.of_nat k) (Z.of_nat (length c))); [|lia]. rewrite Nat2Z.id, H. reflexivity. Qed.
Lemma xat_pad c : xat c (size c) = Some fmax.
Proof. unfold xat. pose proof (size_nn c) as N. pose proof (alloc_gt (size c) N). destruct (Z.ltb_spec (size c) 0); [lia|]. rewrite Z.ltb_irrefl. destruct (Z.ltb_spec (size c) (alloc (size c))); [reflexivity|lia]. Qed.
Lemma xat_far c : size c + 64 < two64 -> xat c (two64 - 1) = None.
Proof. intros H. unfold xat. pose proof (size_nn c) as N. pose proof (alloc_le (size c) N). assert (two64 = 18446744073709551616) by reflexivity. destruct (Z.ltb_spec (two64 - 1) 0); [lia|]. destruct (Z.ltb_spec (two64 - 1) (size c)); [lia|]. destruct (Z.ltb_spec (two64 - 1) (alloc (size c))); [lia|reflexivity]. Qed.
Lemma size_pos c : c <> [] -> 1 <= size c. Proof. destruct c; [congruence|]. unfold size. cbn [length]. lia. Qed.
Lemma located_x c t k : Forall located c -> nth_error c k = Some t -> is_finite (xs t) = true.
Proof. intros F H. rewrite Forall_forall in F. apply F. eapply nth_error_In, H. Qed.
Lemma last_ok c : c <> [] -> size c + 64 < two64 -> exists t, nth_error c (length c - 1) = Some t /\ u64 (size c - 1) = size c - 1 /\ xat c (size c - 1) = Some (xs t).
Proof.
  intros N B. pose proof (size_pos c N). assert (0 < two64) by reflexivity. destruct (xat_in c (size c - 1) ltac:(lia)) as (t & E & X). exists t. split; [rewrite <- E; f_equal; unfold size; lia|]. split; [apply u64_small; unfold in_u64; lia|exact X].
Qed.
Lemma first_ok c : c <> [] -> exists t, nth_error c 0 = Some t /\ xat c 0 = Some (xs t).
Proof. intros N. pose proof (size_pos c N). destruct (xat_in c 0 ltac:(lia)) as (t & E & X). exists t. split; [exact E|exact X]. Qed.
Lemma extent_ok c : c <> [] -> size c + 64 < two64 -> exists a b, nth_error c 0 = Some a /\ nth_error c (length c - 1) = Some b /\ extent c = Some (xs a, xs b).
Proof.
  intros N B. destruct (first_ok c N) as (a & A & XA). destruct (last_ok c N B) as (b & EB & U & XB). exists a, b. split; [exact A|]. split; [exact EB|]. unfold extent. rewrite XA. cbn [obind]. rewrite U, XB. reflexivity.
Qed.
Lemma lt_ninf x : is_finite x = true -> fltb x (B754_infinity true) = false. Proof. destruct x as [| | |[]]; intros H; try discriminate H; reflexivity. Qed.
Lemma inf_lt x : is_finite x = true -> fltb (B754_infinity false) x = false. Proof. destruct x as [| | |[]]; intros H; try discriminate H; reflexivity. Qed.
Lemma window_unl c1 c2 : Forall located c1 -> Forall located c2 -> c1 <> [] -> c2 <> [] -> size c1 + 64 < two64 -> size c2 + 64 < two64 -> window unlimited c1 c2 = Some (0, size c2, 0, size c1).
Proof.
  intros F1 F2 N1 N2 B1 B2. unfold window. destruct (first_ok c1 N1) as (a1 & A1 & X1). destruct (first_ok c2 N2) as (a2 & A2 & X2). destruct (last_ok c1 N1 B1) as (b1 & E1 & U1 & Y1). destruct (last_ok c2 N2 B2) as (b2 & E2 & U2 & Y2).
  pose proof (size_pos c1 N1). pose proof (size_pos c2 N2).
  assert (FA1 := located_x c1 a1 _ F1 A1). assert (FA2 := located_x c2 a2 _ F2 A2). assert (FB1 := located_x c1 b1 _ F1 E1). assert (FB2 := located_x c2 b2 _ F2 E2).
  cbn [climb]. destruct (Z.ltb_spec 0 (size c2)); [|lia]. rewrite X1, X2. unfold below. cbn [obind]. rewrite (sub_unl _ FA1). rewrite (lt_ninf _ FA2). cbn [obind].
  cbn [descend]. destruct (Z.leb_spec 0 (size c2)); [|lia]. rewrite xat_pad, U1, Y1. unfold above. cbn [obind]. rewrite (add_unl _ FB1). rewrite (inf_lt fmax fmax_fin). cbn [obind].
  destruct (Z.ltb_spec 0 (size c1)); [|lia]. rewrite X2. cbn [obind]. rewrite (sub_unl _ FA2), (lt_ninf _ FA1). cbn [obind].
  destruct (Z.leb_spec 0 (size c1)); [|lia]. rewrite xat_pad, U2, Y2. cbn [obind]. rewrite (add_unl _ FB2). rewrite (inf_lt fmax fmax_fin). reflexivity.
Qed.
Lemma scan_every ix us : Forall located us -> forall c1 m i lo hi, Forall located c1 -> Forall (fun x => pos (snd x)) m -> length c1 = length m -> lo <= i -> i + Z.of_nat (length c1) <= hi ->
  Forall2 (nearest ix us) c1 (scan_all ix lo hi us i c1 m).
Proof.
  intros FU. induction c1 as [|t c1 IH]; intros [|x m] i lo hi FC FM L LO HI; try discriminate L; [constructor|]. cbn [scan_all length] in *. constructor.
  - destruct (Z.leb_spec lo i); [|lia]. destruct (Z.ltb_spec i hi); [|lia]. cbn [andb]. apply (scan_ok ix t (Forall_inv FC) us x FU (Forall_inv FM)).
  - apply IH; try lia; [exact (Forall_inv_tail FC)|exact (Forall_inv_tail FM)].
Qed.
Lemma nearest_kept ix us file2 : forall c1 a b, Forall located c1 -> Forall located us -> matched ix file2 c1 a -> matched ix file2 c1 b -> Forall2 improves a b -> Forall2 (nearest ix us) c1 a -> Forall2 (nearest ix us) c1 b.
Proof.
  induction c1 as [|t c1 IH]; intros a b FC FU A B AB N; inversion A as [|? xa ? a' (_ & PA) A']; inversion B as [|? xb ? b' (_ & PB) B']; subst; [constructor|]. inversion AB; subst. inversion N; subst. constructor; [|apply (IH a' b'); try assumption; exact (Forall_inv_tail FC)].
  intros u U. rewrite Forall_forall in FU. pose proof (dval_pos ix t u (Forall_inv FC) (FU u U)) as PD. apply (fltb_trans_false _ (snd xa)); [apply PD|apply PA|apply PB| |assumption]. match goal with HN : nearest ix us t xa |- _ => apply HN, U end.
Qed.
Lemma matched_pos ix file2 c1 m : matched ix file2 c1 m -> length c1 = length m /\ Forall (fun x => pos (snd x)) m.
Proof. intros H. induction H as [|t x c m (_ & P) M (L & F)]; [split; [reflexivity|constructor]|]. split; [cbn; lia|constructor; assumption]. Qed.
Lemma rounds_unl ix c1 file2 : Forall located c1 -> Forall located file2 -> c1 <> [] -> size c1 + 64 < two64 -> forall cs m, (forall c, In c cs -> incl c file2 /\ c <> [] /\ size c + 64 < two64) -> matched ix file2 c1 m ->
  exists r, rounds false ix unlimited c1 cs m = Some r /\ matched ix file2 c1 r /\ Forall2 improves m r /\ (forall c, In c cs -> Forall2 (nearest ix c) c1 r).
Proof.
  intros F1 F2 N1 B1. induction cs as [|c cs IH]; intros m C M; [exists m; repeat split; [exact M|exact (improves_refl ix file2 c1 m M)|intros c []]|].
  destruct (C c (or_introl eq_refl)) as (IC & NC & BC). assert (FC : Forall located c) by (apply Forall_forall; intros x X; rewrite Forall_forall in F2; apply F2, IC, X).
  cbn [rounds]. unfold getCoordsWin. cbn [andb obind]. assert (U : exists m1, update ix unlimited c1 c m = Some m1 /\ Forall2 (nearest ix c) c1 m1).
  { unfold update. rewrite window_unl by assumption. cbn [obind]. eexists. split; [reflexivity|]. rewrite Z.sub_0_r. cbn [Z.to_nat skipn]. replace (firstn (Z.to_nat (size c)) c) with c by (unfold size; rewrite Nat2Z.id, firstn_all; reflexivity). destruct (matched_pos ix file2 c1 m M) as (L & P). apply scan_every; try assumption; [reflexivity|unfold size; lia]. }
  destruct U as (m1 & U & NR). rewrite U. cbn [obind]. destruct (update_matched ix unlimited c1 c file2 m m1 IC FC F1 M U) as (M1 & I1). destruct (IH m1 ltac:(intros c' C'; apply C; right; exact C') M1) as (r & R & MR & IR & NN). exists r. split; [exact R|]. split; [exact MR|]. split; [apply (improves_trans ix file2 c1 m m1 r); assumption|].
  intros c' [<-|C']; [|apply NN, C']. apply (nearest_kept ix c file2 c1 m1 r); assumption.
Qed.
Lemma omap_ok {A B} (f : A -> option B) : forall l, (forall x, In x l -> exists y, f x = Some y) -> exists ys, omap f l = Some ys /\ length ys = length l /\ forall x y, In (x, y) (combine l ys) -> f x = Some y.
Proof.
  induction l as [|x l IH]; intros H; [exists []; repeat split; intros ? ? []|]. destruct (H x (or_introl eq_refl)) as (y & Y). destruct (IH ltac:(intros; apply H; right; assumption)) as (ys & E & L & C). exists (y :: ys). split; [cbn [omap]; rewrite Y; cbn [obind]; rewrite E; reflexivity|]. split; [cbn; lia|]. intros x' y' [P|P]; [injection P as <- <-; exact Y|apply C, P].
Qed.
Lemma all_active f (cs : list (list shot)) (es : list (F * F)) : length es = length cs -> (forall c e, In (c, e) (combine cs es) -> f e = true) -> map fst (filter (fun ce => f (snd ce)) (combine cs es)) = cs.
Proof.
  revert es. induction cs as [|c cs IH]; intros [|e es] L H; try discriminate L; [reflexivity|]. cbn [combine filter snd]. rewrite (H c e (or_introl eq_refl)). cbn [map fst]. f_equal. apply IH; [cbn in L; lia|]. intros c' e' I. apply (H c' e'). right. exact I.
Qed.
Theorem C71_unlimited_partial : forall ix c1 mine cs, Forall located c1 -> Forall located (concat cs) -> c1 <> [] -> (forall c, In c cs -> c <> [] /\ size c + 64 < two64) -> size c1 + 64 < two64 -> In mine cs ->
  exists m, calc4DBin false ix unlimited c1 mine cs = Some m /\ Forall2 (fun t x => genuine ix (concat cs) t x /\ nearest ix (concat cs) t x) c1 m.
Proof.
  intros ix c1 mine cs F1 F2 N1 C B1 I. destruct (omap_ok extent cs) as (es & E & L & CE). { intros c H. destruct (C c H) as (N & B). destruct (extent_ok c N B) as (a & b & _ & _ & X). eauto. }
  destruct (extent_ok c1 N1 B1) as (a1 & b1 & A1 & EB1 & X1). unfold calc4DBin. rewrite E, X1. cbn [obind].
  assert (IM : incl mine (concat cs)) by (intros x X; apply in_concat; exists mine; split; assumption).
  assert (IN : exists m0, initUpdate ix c1 mine = Some m0) by (unfold initUpdate; destruct mine; [destruct (C [] I); congruence|eauto]). destruct IN as (m0 & M0). rewrite M0. cbn [obind].
  assert (M : matched ix (concat cs) c1 m0) by (apply (init_matched ix c1 mine); assumption).
  rewrite (all_active (active unlimited (xs a1) (xs b1))); [|exact L|].
  - destruct (rounds_unl ix c1 (concat cs) F1 F2 N1 B1 cs m0) as (r & R & MR & _ & NN); [|exact M|]. { intros c H. split; [intros x X; apply in_concat; exists c; split; assumption|apply C, H]. }
    exists r. split; [exact R|]. clear -MR NN. assert (G : forall (c : list (list shot)), (forall x, In x c -> Forall2 (nearest ix x) c1 r) -> Forall2 (nearest ix (concat c)) c1 r).
    { induction c as [|x c IH]; intros H.
      - cbn [concat]. clear -MR. induction MR; constructor; [intros u []|assumption].
      - pose proof (H x (or_introl eq_refl)) as HX. specialize (IH ltac:(intros; apply H; right; assumption)). cbn [concat]. clear -HX IH. induction HX as [|t m l l' N HX IHX]; inversion IH; subst; constructor; [|apply IHX; assumption]. intros u U. apply in_app_or in U. destruct U as [U|U]; [apply N, U|auto]. }
    specialize (G cs NN). clear NN. induction MR as [|t x c m (GE & P) M IH]; inversion G; subst; constructor; [split; assumption|apply IH; assumption].
  - intros c e H. specialize (CE c e H). apply in_combine_l in H. destruct (C c H) as (N & B). destruct (extent_ok c N B) as (a & b & A & EB & X). rewrite X in CE. injection CE as <-. unfold active. cbn [fst snd].
    assert (FC : Forall located c) by (apply Forall_forall; intros x Hx; rewrite Forall_forall in F2; apply F2, in_concat; exists c; split; assumption).
    rewrite (sub_unl _ (located_x c a _ FC A)), (add_unl _ (located_x c b _ FC EB)). 
    rewrite (fleb_num (B754_infinity true) (xs b1) eq_refl (FourDProofs.fin_num _ (located_x c1 b1 _ F1 EB1))), (fleb_num (xs a1) (B754_infinity false) (FourDProofs.fin_num _ (located_x c1 a1 _ F1 A1)) eq_refl).
    rewrite (lt_ninf _ (located_x c1 b1 _ F1 EB1)), (inf_lt _ (located_x c1 a1 _ F1 A1)). reflexivity.
Qed.
Print Assumptions C71_unlimited_partial.


(** Three traces against two processes' traces of file 2. *)
Definition at_ (n x y x' y' : Z) : shot := mkShot (f_of_Z x) (f_of_Z y) (f_of_Z x') (f_of_Z y') n 0 0.
Definition ex_c1 : list shot := [at_ 0 0 0 10 0; at_ 1 5 0 15 0; at_ 2 9 1 19 1].
Definition ex_cs : list (list shot) := [[at_ 0 1 0 11 0; at_ 1 4 0 15 0]; [at_ 2 9 0 20 1]].
Lemma at_located n x y x' y' : Z.abs x <= two24 -> Z.abs y <= two24 -> Z.abs x' <= two24 -> Z.abs y' <= two24 -> located (at_ n x y x' y').
Proof. intros A B C D. repeat split; cbn [xs ys xr yr at_]; apply of_Z_int; assumption. Qed.
Example ex_unlimited : Forall located ex_c1 /\ Forall located (concat ex_cs) /\ (forall c, In c ex_cs -> c <> [] /\ size c + 64 < two64) /\ size ex_c1 + 64 < two64 /\
  option_map (map fst) (calc4DBin false false unlimited ex_c1 (nth 0 ex_cs []) ex_cs) = Some [0; 1; 2].
Proof.
  split; [|split; [|split; [|split]]].
  - repeat constructor; apply at_located; unfold two24; lia.
  - repeat constructor; apply at_located; unfold two24; lia.
  - intros c [<-|[<-|[]]]; (split; [discriminate|reflexivity]).
  - reflexivity.
  - vm_compute. reflexivity.
Qed.
