(** Lemmas about the extremes of a set of files. *)
From Coq Require Import Reals Lra Permutation Sorted.
From Flocq Require Import Core IEEE754.BinarySingleNaN Relative.
From Verif Require Import Base DecompModel DecompSpec DecompProofs NumEncModel NumEncSpec NumEncProofs CharEncModel CharEncProofs LayoutModel LayoutProofs DataIOModel DataIOProofs
  RuleModel RuleProofs DoubleModel ParamModel ParamProofs HeaderProofs ScalarProofs FileSpec FileModel FileProofs WriteSpec WriteProofs RuleProperties ParamProperties ReadProofs OpenProofs FileProperties TraceProperties.
From Verif Require Import SortSpec SortModel SortProofs CompProofs MinMaxModel MinMaxProofs MinMaxProperties FloatModel SetOpsModel ToolModel ToolProperties CopySpec CopyProofs CopyProperties ExampleModel ExampleProofs PieceProofs CreateProofs ModModel ModSpec ModProofs.
From Verif Require Import FlowModel FlowProofs SetFileModel SetFileProofs SetOutProofs.
From Verif Require SetSortProofs VerifyProofs MultiSortProofs MultiRankProofs.
From Verif Require Import SetSortSpec ExtremeModel ExtremeSpec ExtremeProofs ExtremeRows MultiSortSpec SetExtremeModel SetExtremeSpec.
Import ListNotations.
Open Scope Z_scope.

(** ---- folds of updates ---- *)
Lemma fold_pair {X} (T : X -> elem * elem) : forall fs m, fold_left (fun m f => let t := T f in (upd_min (fst t) (fst m), upd_max (snd t) (snd m))) fs m =
  (fold_left (fun m t => upd_min t m) (map (fun f => fst (T f)) fs) (fst m), fold_left (fun m t => upd_max t m) (map (fun f => snd (T f)) fs) (snd m)).
Proof. induction fs as [|f fs IH]; intros (a, b); [reflexivity|]. cbn [fold_left map]. rewrite IH. reflexivity. Qed.
Definition from (l : list elem) (q : elem) : Prop := exists e e', In e l /\ In e' l /\ fst q = fst e' /\ ext (fst e') = ext (fst e) /\ snd q = snd e.
Lemma step_min t m : num (fst t) -> num (fst m) -> from [t; m] (upd_min t m) /\ num (fst (upd_min t m)) /\ (ext (fst (upd_min t m)) <= ext (fst t))%R /\ (ext (fst (upd_min t m)) <= ext (fst m))%R.
Proof.
  intros T M. destruct (upd_min_le t m T M) as (N & E). split; [|split; [exact N|rewrite E; split; [apply Rmin_l|apply Rmin_r]]]. clear N E.
  unfold upd_min. pose proof (deqb_spec _ _ T M) as E. destruct (deqb (fst t) (fst m)).
  - pose proof (proj1 E eq_refl) as EQ. destruct (Z.min_spec (snd t) (snd m)) as [(_ & H)|(_ & H)]; rewrite H; [exists t, m|exists m, m]; cbn [fst snd In]; auto 8.
  - destruct (dltb (fst t) (fst m)); [exists t, t|exists m, m]; cbn [In]; auto 8.
Qed.
Lemma step_max t m : num (fst t) -> num (fst m) -> from [t; m] (upd_max t m) /\ num (fst (upd_max t m)) /\ (ext (fst t) <= ext (fst (upd_max t m)))%R /\ (ext (fst m) <= ext (fst (upd_max t m)))%R.
Proof.
  intros T M. destruct (upd_max_le t m T M) as (N & E). split; [|split; [exact N|rewrite E; split; [apply Rmax_l|apply Rmax_r]]]. clear N E.
  unfold upd_max. pose proof (deqb_spec _ _ T M) as E. destruct (deqb (fst t) (fst m)).
  - pose proof (proj1 E eq_refl) as EQ. destruct (Z.min_spec (snd t) (snd m)) as [(_ & H)|(_ & H)]; rewrite H; [exists t, m|exists m, m]; cbn [fst snd In]; auto 8.
  - destruct (dltb (fst m) (fst t)); [exists t, t|exists m, m]; cbn [In]; auto 8.
Qed.
Lemma from_step t m l q0 q : from [t; m] q0 -> from (q0 :: l) q -> (ext (fst q0) = ext (fst q0))%R -> from (m :: t :: l) q.
Proof.
  intros (e & e' & E1 & E2 & E3 & E4 & E5) (d & d' & D1 & D2 & D3 & D4 & D5) _.
  assert (A : forall x, In x [t; m] -> In x (m :: t :: l)) by (intros x [<-|[<-|[]]]; cbn [In]; auto).
  assert (B : forall x, In x l -> In x (m :: t :: l)) by (intros x X; right; right; exact X).
  destruct D1 as [<-|D1], D2 as [<-|D2].
  - exists e, e'. split; [apply A, E1|]. split; [apply A, E2|]. split; [congruence|]. split; [exact E4|congruence].
  - exists e, d'. split; [apply A, E1|]. split; [apply B, D2|]. split; [exact D3|]. split; [rewrite D4, E3; exact E4|congruence].
  - exists d, e'. split; [apply B, D1|]. split; [apply A, E2|]. split; [congruence|]. split; [rewrite <- E3; exact D4|exact D5].
  - exists d, d'. split; [apply B, D1|]. split; [apply B, D2|]. auto.
Qed.
Lemma fold_min : forall ts m, num (fst m) -> (forall t, In t ts -> num (fst t)) -> let q := fold_left (fun m t => upd_min t m) ts m in
  from (m :: ts) q /\ (ext (fst q) <= ext (fst m))%R /\ forall t, In t ts -> (ext (fst q) <= ext (fst t))%R.
Proof.
  induction ts as [|t ts IH]; intros m M T q.
  - split; [exists m, m; cbn [In]; auto 8|]. split; [apply Rle_refl|intros t []].
  - cbn [fold_left] in q. destruct (step_min t m (T t (or_introl eq_refl)) M) as (F & N & L1 & L2). destruct (IH (upd_min t m) N (fun x X => T x (or_intror X))) as (A & B & C). fold q in A, B, C.
    split; [apply (from_step t m ts (upd_min t m) q F A eq_refl)|]. split; [eapply Rle_trans; eassumption|]. intros x [<-|X]; [eapply Rle_trans; eassumption|apply C, X].
Qed.
Lemma fold_max : forall ts m, num (fst m) -> (forall t, In t ts -> num (fst t)) -> let q := fold_left (fun m t => upd_max t m) ts m in
  from (m :: ts) q /\ (ext (fst m) <= ext (fst q))%R /\ forall t, In t ts -> (ext (fst t) <= ext (fst q))%R.
Proof.
  induction ts as [|t ts IH]; intros m M T q.
  - split; [exists m, m; cbn [In]; auto 8|]. split; [apply Rle_refl|intros t []].
  - cbn [fold_left] in q. destruct (step_max t m (T t (or_introl eq_refl)) M) as (F & N & L1 & L2). destruct (IH (upd_max t m) N (fun x X => T x (or_intror X))) as (A & B & C). fold q in A, B, C.
    split; [apply (from_step t m ts (upd_max t m) q F A eq_refl)|]. split; [eapply Rle_trans; eassumption|]. intros x [<-|X]; [eapply Rle_trans; eassumption|apply C, X].
Qed.
Lemma fold_max_none : forall ts m, num (fst m) -> (forall t, In t ts -> num (fst t) /\ (ext (fst t) < ext (fst m))%R) -> fold_left (fun m t => upd_max t m) ts m = m.
Proof.
  induction ts as [|t ts IH]; intros m M T; [reflexivity|]. cbn [fold_left]. assert (E : upd_max t m = m).
  { destruct (T t (or_introl eq_refl)) as (N & L). unfold upd_max. pose proof (deqb_spec _ _ N M) as E1. pose proof (dltb_spec _ _ M N) as E2. destruct (deqb (fst t) (fst m)); [pose proof (proj1 E1 eq_refl); lra|]. destruct (dltb (fst m) (fst t)); [pose proof (proj1 E2 eq_refl); lra|reflexivity]. }
  rewrite E. apply IH; [exact M|]. intros x X. apply T. right. exact X.
Qed.
(** ---- the bounds the search starts from ---- *)
Lemma dbl_min_val : fin dbl_min /\ val dbl_min = bpow radix2 (-1022).
Proof.
  split; [vm_compute; reflexivity|]. unfold val. rewrite <- SF2R_B2SF. assert (E : B2SF dbl_min = SpecFloat.S754_finite false 4503599627370496 (-1074)) by (vm_compute; reflexivity). rewrite E. cbn [SF2R cond_Zopp]. unfold F2R. cbn [Fnum Fexp].
  change 4503599627370496 with (2 ^ 52). change (-1022) with (52 + -1074). rewrite bpow_plus, <- (IZR_Zpower radix2 52) by lia. reflexivity.
Qed.
Lemma dbl_max_val : fin dbl_max /\ (bpow radix2 1023 <= val dbl_max)%R.
Proof.
  split; [vm_compute; reflexivity|]. unfold val. rewrite <- SF2R_B2SF. assert (E : B2SF dbl_max = SpecFloat.S754_finite false 9007199254740991 971) by (vm_compute; reflexivity). rewrite E. cbn [SF2R cond_Zopp]. unfold F2R. cbn [Fnum Fexp].
  change 1023 with (52 + 971). rewrite bpow_plus. apply Rmult_le_compat_r; [apply bpow_ge_0|]. rewrite <- (IZR_Zpower radix2 52) by lia. apply IZR_le. vm_compute. discriminate.
Qed.
Lemma shows_bounds h l v : in_s16 (int16_at h 71) -> in_s32 (int32_at h l) -> shows v (coordinate h l 71) ->
  (val v < bpow radix2 1023)%R /\ (0 < coordinate h l 71 -> bpow radix2 (-1022) < val v)%R /\ (coordinate h l 71 <= 0 -> val v <= 0)%R.
Proof.
  intros S I (_ & C). rewrite (coordinate_fraction h l S) in *. pose proof (den_range _ S) as K. destruct (num_range _ _ S I) as (A & _).
  set (a := num_of (int16_at h 71) (int32_at h l)) in *. set (k := den_of (int16_at h 71)) in *. clearbody a k. clear S I h l. set (x := val v) in *. clearbody x.
  assert (K1 : (1 <= IZR k <= 32768)%R) by (split; apply IZR_le; lia). set (c := (IZR a / IZR k)%R) in *.
  assert (E51 : (bpow radix2 (-51) = / 2251799813685248)%R) by (cbn; lra). rewrite E51 in C. apply Rabs_le_inv in C.
  assert (AR : (Rabs (IZR a) <= 70368744177664)%R) by (rewrite <- abs_IZR; apply IZR_le; change (2 ^ 46) with 70368744177664 in A; exact A).
  assert (CA : (Rabs c <= 70368744177664)%R). { unfold c, Rdiv. rewrite Rabs_mult, Rabs_inv, (Rabs_pos_eq (IZR k)) by lra. apply Rle_trans with (Rabs (IZR a) * 1)%R; [apply Rmult_le_compat_l; [apply Rabs_pos|]|lra]. rewrite <- Rinv_1. apply Rinv_le; lra. }
  split; [|split].
  - assert (B : (bpow radix2 50 <= bpow radix2 1023)%R) by (apply bpow_le; lia). assert (B50 : (bpow radix2 50 = 1125899906842624)%R) by (cbn; lra). pose proof (Rle_abs c). lra.
  - intros P. assert (AP : 0 < a). { apply lt_IZR. apply Rnot_le_lt. intros Q. unfold c, Rdiv in P. assert (0 < / IZR k)%R by (apply Rinv_0_lt_compat; lra). assert (IZR a * / IZR k <= 0 * / IZR k)%R by (apply Rmult_le_compat_r; lra). lra. }
    assert (CL : (/ 32768 <= c)%R). { unfold c, Rdiv. apply Rle_trans with (1 * / IZR k)%R; [rewrite Rmult_1_l; apply Rinv_le; lra|]. apply Rmult_le_compat_r; [left; apply Rinv_0_lt_compat; lra|]. apply IZR_le. lia. }
    rewrite (Rabs_pos_eq c) in C by lra. assert (B : (bpow radix2 (-1022) <= bpow radix2 (-20))%R) by (apply bpow_le; lia). assert (B20 : (bpow radix2 (-20) = / 1048576)%R) by (cbn; lra). lra.
  - intros P. rewrite (Rabs_left1 c) in C by exact P. lra.
Qed.
(** ---- the rules ---- *)
Record mm_rule (rl : rule) (m1 l1 m2 l2 : Z) : Prop := mkMmRule {
  mr_usable : usable rl; mr_good : good rl; mr_label : exists e, lookup 1 (translate rl) = Some e /\ e_type e = MIndex;
  mr_1 : exists e, lookup m1 (translate rl) = Some e /\ e_type e = MFloat /\ e_loc e = l1 /\ e_scal e = 71;
  mr_2 : exists e, lookup m2 (translate rl) = Some e /\ e_type e = MFloat /\ e_loc e = l2 /\ e_scal e = 71 }.
Lemma with_good m1 m2 rl : good rl -> good (with_two m1 m2 rl). Proof. intros G. unfold with_two. apply addRule_good, addRule_good, G. Qed.
Lemma without_good m1 m2 rl : good rl -> good (without_two m1 m2 rl).
Proof. intros G. unfold without_two. pose proof (with_good m1 m2 rl G) as W. destruct (fst (addRule m1 rl)), (fst (addRule m2 (snd (addRule m1 rl)))); repeat apply rmRule_good; exact W. Qed.
Ltac rule_tac := constructor;
  [apply SetSortProofs.entries_usable; [split; vm_compute; reflexivity|]; match goal with |- Forall _ ?t => let t' := eval vm_compute in t in change t with t' end;
   repeat (apply Forall_cons; [first [left; reflexivity|right; eexists; split; [reflexivity|split; [reflexivity|intros a A; cbn [scale_field] in A; first [contradiction|split; [reflexivity|exact A]]]]]|]); constructor
  |repeat first [apply with_good|apply without_good]; apply set_rule_good
  |eexists; split; [vm_compute; reflexivity|reflexivity]|eexists; split; [vm_compute; reflexivity|repeat split; reflexivity]|eexists; split; [vm_compute; reflexivity|repeat split; reflexivity]].
Definition rule1 := without_two 20 21 set_rule.
Definition rule2 := without_two 22 23 rule1.
Lemma rule1_eq : rule1 = without_two 20 21 set_rule. Proof. unfold rule1. reflexivity. Qed.
Lemma rule2_eq : rule2 = without_two 22 23 rule1. Proof. unfold rule2. reflexivity. Qed.
Lemma rule_src : mm_rule (with_two 20 21 set_rule) 20 73 21 77. Proof. rule_tac. Qed.
Lemma rule_rcv : mm_rule (with_two 22 23 rule1) 22 81 23 85. Proof. unfold rule1. rule_tac. Qed.
Lemma rule_cmp : mm_rule (with_two 24 25 rule2) 24 181 25 185. Proof. unfold rule2, rule1. rule_tac. Qed.

(** ---- the values of one file on one rank ---- *)
Section File.
Context (maxSize : Z) (sizes0 : list Z) (f : file) (rd : reader) (RB : readable maxSize sizes0 f rd) (rl : rule) (m1 l1 m2 l2 : Z) (MR : mm_rule rl m1 l1 m2 l2).
Let ns := r_ns rd.
Let nt := r_nt rd.
Let hdr (a : Z) : mem := disk_header f ns a.
Lemma held_two p i hd m l : p_rule p = rl -> holds p i hd -> (forall x, is_byte (hd x)) -> (exists e, lookup m (translate rl) = Some e /\ e_type e = MFloat /\ e_loc e = l /\ e_scal e = 71) -> getPrm i m p = Some (VF (read_coordinate hd l)).
Proof.
  intros R H B (e & L & T & EL & ES). apply (H m e); [rewrite R; exact L|]. unfold decode. rewrite T, EL, ES, !Z.add_0_l, !Z.sub_0_r.
  unfold read_coordinate. rewrite int16_rd, int32_rd by (intros; apply B). reflexivity.
Qed.
Lemma pair_two p i hd : wf_param p -> p_rule p = rl -> 0 <= i < p_sz p -> holds p i hd -> (forall x, is_byte (hd x)) -> pair_at m1 m2 p i = Some (read_coordinate hd l1, read_coordinate hd l2).
Proof.
  intros W R I H B. unfold pair_at. rewrite R. destruct MR as [MU MG _ M1 M2].
  destruct (same_rule_wf p (newParam rl 1) i 0 W) as (v & E & _ & _ & G & _).
  { apply newParam_wf; [exact MG|lia]. }
  { rewrite R. reflexivity. }
  { intros _. rewrite R. apply MU. }
  { exact I. }
  { cbn. lia. }
  rewrite E. cbn [obind]. rewrite R in G. pose proof M1 as (e1 & L1 & _). pose proof M2 as (e2 & L2 & _).
  rewrite (G m1 e1 L1), (G m2 e2 L2), (held_two p i hd m1 l1 R H B M1), (held_two p i hd m2 l2 R H B M2). reflexivity.
Qed.
Lemma pairs_rows sz off n : 0 <= n -> (forall i, 0 <= i < n -> 0 <= off + i < nt) -> set_pairs maxSize sz rl m1 m2 (rd, f) (map (fun i => off + i) (zr n)) = Some (rows f rd l1 l2 off n).
Proof.
  intros N V. destruct (rb_facts maxSize sizes0 f rd RB) as (F & HT & N64 & N0). unfold set_pairs, readTraceNonContiguous. cbn [fst snd]. fold ns. pose proof MR as [(FR & FO) MG ML _ _]. set (us := map (fun i => off + i) (zr n)).
  assert (LU : Z.of_nat (length us) = n) by (unfold us; rewrite map_length, MultiSortProofs.length_zr; lia).
  assert (NU : forall j, 0 <= j < n -> nth (Z.to_nat j) us 0 = off + j).
  { intros j J. unfold us. rewrite (nth_indep _ 0 ((fun i => off + i) 0)) by (rewrite map_length, MultiSortProofs.length_zr; lia). rewrite (map_nth (fun i => off + i)), MultiSortProofs.nth_own by exact J. reflexivity. }
  rewrite LU. set (q0 := newParam rl n).
  assert (RE : readTraceT maxSize sz (r_format rd) ns (Listed us) None (Some q0) 0 f = readTraceT maxSize sz 5 ns (Listed us) None (Some q0) 0 f).
  { unfold readTraceT. destruct (obj_io _ _ _ _ _ _ _); reflexivity || (cbn [obind option_map]; destruct (extractParam _ _ _ _ _ _) as [q|]; [cbn [obind]; destruct (set_labels _ _ _ q); reflexivity|reflexivity]). }
  rewrite RE. destruct (read_spec maxSize sz 5 ns nt (Listed us) None (Some q0) 0 f (proj2 (ra_max _ _ _ _ RB)) F) as (trc' & prm' & E & A0 & _ & _ & B); try assumption.
  { cbn [tvalid]. apply Forall_forall. intros x X. unfold us in X. apply in_map_iff in X. destruct X as (i & <- & I). apply in_zr in I. apply V, I. }
  { intros; apply (ra_bytes _ _ _ _ RB). }
  { lia. }
  { right; discriminate. }
  { intros q Q. injection Q as <-. split; [apply newParam_wf; [exact MG|lia]|]. split; [exact FR|]. split; [exact FO|]. split; [exact ML|]. cbn [tcount]. rewrite LU. cbn. lia. }
  destruct (B _ eq_refl) as (p' & -> & B1 & B2 & B3 & B4 & _). cbn [p_rule p_sz newParam tcount tpos q0] in *. rewrite LU in B4. rewrite E. cbn [obind].
  apply omap_map. intros j J. apply in_zr in J. apply (pair_two p' j (hdr (off + j))); [exact B1|exact B2|rewrite B3; exact J| |intros x; apply (ra_bytes _ _ _ _ RB)].
  intros m e v LK D. rewrite B2 in LK. rewrite <- (Z.add_0_r j). apply (B4 j m e v J LK). cbn [tpos]. rewrite NU by exact J. exact D.
Qed.
End File.
Lemma entries_nth p r : forall fl before k, (k < length fl)%nat -> f_ilst (nth k (entries p r before fl) no_fd) = map (fun i => off_of (snd (nth k fl ((0, 0), 0))) p r + i) (zr (sz_of (snd (nth k fl ((0, 0), 0))) p r)).
Proof. induction fl as [|x fl IH]; intros before k K; [cbn in K; lia|]. cbn [entries]. destruct k as [|k]; cbn [nth]; [reflexivity|]. apply IH. cbn in K. lia. Qed.

(** ---- one search over the files of a set ---- *)
Section Search.
Context (maxSize : Z) (fl : list (gkey * (reader * file))) (p : nat) (P : (0 < p)%nat).
Let g := map snd fl.
Context (RB : forall k, (k < length g)%nat -> exists s, readable maxSize s (snd (nth k g no_input)) (fst (nth k g no_input))).
Context (B : forall k, gsum k (map (fun x => (fst x, r_nt (fst (snd x)))) fl) < two64) (NE : fl <> []).
Let hd (k : nat) (a : Z) : mem := disk_header (file_of g k) (r_ns (fst (nth k g no_input))) a.
Let nt (k : nat) : Z := traces_in g k.
Lemma g_len : length g = length fl. Proof. apply map_length. Qed.
Lemma nt_ok k : (k < length g)%nat -> in_u64 (nt k) /\ 0 < nt k.
Proof. intros K. destruct (RB k K) as (s & R). destruct (rb_facts _ _ _ _ R) as (_ & _ & N & _). split; [exact N|exact (ra_nt _ _ _ _ R)]. Qed.
Lemma hd_ok k a l : (k < length g)%nat -> in_s16 (int16_at (hd k a) 71) /\ in_s32 (int32_at (hd k a) l) /\ fin (read_coordinate (hd k a) l).
Proof.
  intros K. destruct (RB k K) as (s & R). assert (BY : forall x, is_byte (hd k a x)) by (intros x; apply (ra_bytes _ _ _ _ R)).
  assert (A1 : in_s16 (int16_at (hd k a) 71)) by (rewrite int16_rd by apply BY; apply rd16_range). assert (A2 : in_s32 (int32_at (hd k a) l)) by (rewrite int32_rd by (intros; apply BY); apply rd32_range).
  split; [exact A1|]. split; [exact A2|]. apply (read_close (hd k a) l A1 A2).
Qed.
Definition col (l1 l2 : Z) (k r : nat) : list trc := rows (file_of g k) (fst (nth k g no_input)) l1 l2 (off_of (nt k) (Z.of_nat p) (Z.of_nat r)) (sz_of (nt k) (Z.of_nat p) (Z.of_nat r)).
Lemma set_values_rows sizes rl m1 l1 m2 l2 k : mm_rule rl m1 l1 m2 l2 -> (k < length g)%nat ->
  set_values maxSize sizes rl m1 m2 fl p k = Some (fun r => nth r (map (col l1 l2 k) (seq 0 p)) []).
Proof.
  intros MR K. unfold set_values. rewrite (omap_map _ (col l1 l2 k)); [reflexivity|]. intros r R. apply in_seq in R. fold no_input g.
  unfold set_files. rewrite add_files_spec; [|lia|lia| |exact B].
  2:{ apply Forall_forall. intros x X. apply in_map_iff in X. destruct X as (y & <- & Y). cbn [snd]. apply (In_nth _ _ ((0, 0), no_input)) in Y. destruct Y as (j & J & <-). assert (J' : (j < length g)%nat) by (rewrite g_len; exact J). pose proof (proj1 (nt_ok j J')) as Q. unfold nt, traces_in, g in Q. change no_input with (snd ((0, 0), no_input)) in Q. rewrite map_nth in Q. exact Q. }
  rewrite entries_nth by (rewrite map_length, <- g_len; exact K).
  assert (EN : snd (nth k (map (fun x : gkey * (reader * file) => (fst x, r_nt (fst (snd x)))) fl) (0, 0, 0)) = nt k).
  { set (h := fun x : gkey * (reader * file) => (fst x, r_nt (fst (snd x)))). rewrite (nth_indep _ _ (h ((0, 0), no_input))) by (unfold h; rewrite map_length, <- g_len; exact K). rewrite (map_nth h). unfold h, nt, traces_in, g. cbn [snd]. change no_input with (snd ((0, 0), no_input)) at 2. rewrite map_nth. reflexivity. }
  rewrite EN. destruct (RB k K) as (s & R0). destruct (nt_ok k K) as (N64 & N0). destruct (nth k g no_input) as (rd, f) eqn:EX. cbn [fst snd] in R0.
  rewrite (pairs_rows maxSize s f rd R0 rl m1 l1 m2 l2 MR (sizes k r) (off_of (nt k) (Z.of_nat p) (Z.of_nat r)) (sz_of (nt k) (Z.of_nat p) (Z.of_nat r))).
  - unfold col, file_of. rewrite EX. reflexivity.
  - apply MultiRankProofs.m_size; lia.
  - intros i I. assert (Q : r_nt rd = nt k) by (unfold nt, traces_in; rewrite EX; reflexivity). rewrite Q. apply off_sz_bound; [exact N64|lia|lia|apply in_zr; exact I].
Qed.
(** What the search over file k finds. *)
Lemma column_extremes junk l1 l2 k (dat : nat -> list trc) : (k < length g)%nat -> (forall r, (r < p)%nat -> dat r = col l1 l2 k r) ->
  let t := getCoordMinMax junk p (off_of_file dat) dat in
  (exists a, 0 <= a < nt k /\ fst t = (read_coordinate (hd k a) l1, a)) /\ (exists a, 0 <= a < nt k /\ snd t = (read_coordinate (hd k a) l1, a)) /\
  forall a, 0 <= a < nt k -> (ext (fst (fst t)) <= ext (read_coordinate (hd k a) l1) <= ext (fst (snd t)))%R.
Proof.
  intros K DT t. destruct (nt_ok k K) as (N64 & N0). set (o := fun r : nat => off_of (nt k) (Z.of_nat p) (Z.of_nat r)). set (z := fun r : nat => sz_of (nt k) (Z.of_nat p) (Z.of_nat r)).
  assert (Z0 : forall r, (r < p)%nat -> 0 <= z r) by (intros r R; apply MultiRankProofs.m_size; lia).
  assert (LEN : forall r, (r < p)%nat -> Z.of_nat (length (dat r)) = z r). { intros r R. rewrite DT by exact R. unfold col, rows. rewrite map_length, MultiSortProofs.length_zr. fold (z r). specialize (Z0 r R). lia. }
  assert (OFF : forall r, (r < p)%nat -> off_of_file dat r = o r).
  { intros r R. unfold off_of_file. assert (S : zsum (map (fun q => Z.of_nat (length (dat q))) (seq 0 r)) = o r).
    { clear -LEN R N0 P. induction r as [|r IH]; [cbn [seq map]; unfold o; change (Z.of_nat 0) with 0; rewrite off_0 by lia; reflexivity|]. rewrite seq_S, map_app, zsum_app, IH by lia. cbn [map Nat.add]. rewrite LEN by lia. unfold o. replace (Z.of_nat (S r)) with (Z.of_nat r + 1) by lia. rewrite off_step by lia. fold (z r). unfold zsum. cbn [fold_right]. lia. }
    rewrite S. apply u64_small. unfold in_u64 in *. unfold o. assert (0 <= off_of (nt k) (Z.of_nat p) (Z.of_nat r)) by (rewrite <- (off_0 (nt k) (Z.of_nat p)) by lia; apply off_mono; lia). assert (off_of (nt k) (Z.of_nat p) (Z.of_nat r) <= nt k) by (rewrite <- (off_p (nt k) (Z.of_nat p)) at 2 by lia; apply off_mono; lia). lia. }
  assert (AT : forall r i x, (r < p)%nat -> nth_error (dat r) i = Some x -> 0 <= o r + Z.of_nat i < nt k /\ fst x = read_coordinate (hd k (o r + Z.of_nat i)) l1).
  { intros r i x R N. rewrite DT in N by exact R. unfold col in N. apply row_at in N. destruct N as (I & ->). split; [|reflexivity]. apply off_sz_bound; [exact N64|lia|lia|apply in_zr; lia]. }
  assert (ALL : forall a, 0 <= a < nt k -> exists r x, (r < p)%nat /\ In x (dat r) /\ fst x = read_coordinate (hd k a) l1).
  { intros a A. assert (IN : In a (flat_map (fun r => map (fun i => off_of (nt k) (Z.of_nat p) (Z.of_nat r) + i) (zr (sz_of (nt k) (Z.of_nat p) (Z.of_nat r)))) (seq 0 p))) by (rewrite (pieces_tile _ (Z.of_nat p) N64 ltac:(lia) p ltac:(lia)), off_p by lia; apply in_zr; exact A).
    apply in_flat_map in IN. destruct IN as (r & R & IM). apply in_seq in R. apply in_map_iff in IM. destruct IM as (j & <- & J). exists r, (read_coordinate (hd k (o r + j)) l1, read_coordinate (hd k (o r + j)) l2). split; [lia|]. split; [|reflexivity].
    rewrite DT by lia. unfold col, rows. apply in_map_iff. exists j. split; [reflexivity|exact J]. }
  destruct (file_extremes junk p dat) as ((((ra & ia & ta & RA & NA & EA & SA) & MI) & _) & ((rb & ib & tb & RB' & NB & EB & SB) & MX) & _).
  { intros r x R X. rewrite DT in X by exact R. unfold col, rows in X. apply in_map_iff in X. destruct X as (j & <- & _). cbn [fst snd]. split; apply hd_ok; exact K. }
  { destruct (ALL 0 ltac:(lia)) as (r & x & R & X & _). exists r. split; [exact R|]. intros Q. rewrite Q in X. destruct X. }
  fold t in EA, SA, MI, EB, SB, MX.
  destruct (AT _ _ _ RA NA) as (A1 & A2). destruct (AT _ _ _ RB' NB) as (B1 & B2). rewrite OFF in SA, SB by assumption. rewrite u64_small in SA by (unfold in_u64 in *; lia). rewrite u64_small in SB by (unfold in_u64 in *; lia).
  split; [exists (o ra + Z.of_nat ia); split; [exact A1|]; rewrite <- A2, <- EA, <- SA; destruct (fst t); reflexivity|]. split; [exists (o rb + Z.of_nat ib); split; [exact B1|]; rewrite <- B2, <- EB, <- SB; destruct (snd t); reflexivity|].
  intros a A. destruct (ALL a A) as (r & x & R & X & E). rewrite <- E. split; [apply (MI r x R X)|apply (MX r x R X)].
Qed.
Lemma val_order k a k' a' l : (k < length g)%nat -> (k' < length g)%nat -> (ext (read_coordinate (hd k a) l) <= ext (read_coordinate (hd k' a') l))%R -> (place_of g k a l <= place_of g k' a' l)%R.
Proof.
  intros K K' L. destruct (hd_ok k a l K) as (S1 & I1 & F1). destruct (hd_ok k' a' l K') as (S2 & I2 & F2). rewrite !ext_fin in L by assumption. fold (val (read_coordinate (hd k a) l)) in L. fold (val (read_coordinate (hd k' a') l)) in L.
  unfold place_of. fold (hd k a) (hd k' a'). destruct (Rlt_le_dec (coordinate (hd k' a') l 71) (coordinate (hd k a) l 71)) as [Q|Q]; [|exact Q]. apply (read_order _ _ _ S2 I2 S1 I1) in Q. lra.
Qed.
Lemma ext_val v : fin v -> ext v = val v. Proof. intros F. rewrite ext_fin by exact F. reflexivity. Qed.
Lemma shows_read k a l v : (k < length g)%nat -> fin v -> ext v = ext (read_coordinate (hd k a) l) -> shows v (place_of g k a l).
Proof.
  intros K FV E. destruct (hd_ok k a l K) as (S1 & I1 & F1). rewrite !ext_val in E by assumption. split; [exact FV|]. rewrite E. apply (read_close (hd k a) l S1 I1).
Qed.
(** One direction of the search over all files. *)
Lemma search junk l1 l2 (files : list (nat -> list trc)) : length files = length g -> (forall k, (k < length g)%nat -> forall r, (r < p)%nat -> nth k files (fun _ => []) r = col l1 l2 k r) ->
  let q := set_minmax junk p files in set_extreme g true l1 (fst q) /\
  ((exists k a, (k < length g)%nat /\ 0 <= a < nt k /\ (0 < place_of g k a l1)%R) -> set_extreme g false l1 (snd q)) /\
  ((forall k a, (k < length g)%nat -> 0 <= a < nt k -> (place_of g k a l1 <= 0)%R) -> snd q = (dbl_min, two64 - 1)).
Proof.
  intros LF DT q. unfold set_minmax in q. set (T := fun f => getCoordMinMax junk p (off_of_file f) f) in *.
  assert (EQ : q = (fold_left (fun m t => upd_min t m) (map (fun f => fst (T f)) files) (dbl_max, two64 - 1), fold_left (fun m t => upd_max t m) (map (fun f => snd (T f)) files) (dbl_min, two64 - 1))) by (unfold q; apply (fold_pair T files ((dbl_max, two64 - 1), (dbl_min, two64 - 1)))).
  rewrite EQ. clear q EQ. cbn [fst snd].
  assert (TF : forall k, (k < length g)%nat -> (exists a, 0 <= a < nt k /\ fst (T (nth k files (fun _ => []))) = (read_coordinate (hd k a) l1, a)) /\ (exists a, 0 <= a < nt k /\ snd (T (nth k files (fun _ => []))) = (read_coordinate (hd k a) l1, a)) /\
    forall a, 0 <= a < nt k -> (ext (fst (fst (T (nth k files (fun _ => []))))) <= ext (read_coordinate (hd k a) l1) <= ext (fst (snd (T (nth k files (fun _ => []))))))%R) by (intros k K; apply (column_extremes junk l1 l2 k _ K (DT k K))).
  set (mins := map (fun f => fst (T f)) files). set (maxs := map (fun f => snd (T f)) files).
  assert (IMIN : forall e, In e mins -> exists k a, (k < length g)%nat /\ 0 <= a < nt k /\ e = (read_coordinate (hd k a) l1, a)).
  { intros e I. apply in_map_iff in I. destruct I as (f & <- & I). apply (In_nth _ _ (fun _ => [])) in I. destruct I as (k & K & <-). rewrite LF in K. destruct (TF k K) as ((a & A & E) & _). exists k, a. auto. }
  assert (IMAX : forall e, In e maxs -> exists k a, (k < length g)%nat /\ 0 <= a < nt k /\ e = (read_coordinate (hd k a) l1, a)).
  { intros e I. apply in_map_iff in I. destruct I as (f & <- & I). apply (In_nth _ _ (fun _ => [])) in I. destruct I as (k & K & <-). rewrite LF in K. destruct (TF k K) as (_ & (a & A & E) & _). exists k, a. auto. }
  assert (MEM : forall k, (k < length g)%nat -> In (fst (T (nth k files (fun _ => [])))) mins /\ In (snd (T (nth k files (fun _ => [])))) maxs).
  { intros k K. split; [apply (in_map (fun f => fst (T f)))|apply (in_map (fun f => snd (T f)))]; apply nth_In; rewrite LF; exact K. }
  clearbody T. assert (NUM : forall k a, (k < length g)%nat -> num (read_coordinate (hd k a) l1)) by (intros k a K; apply fin_num, hd_ok, K).
  assert (G0 : (0 < length g)%nat) by (rewrite g_len; apply Nat.neq_0_lt_0; intros Q; apply NE, length_zero_iff_nil, Q).
  assert (TOP : forall k a, (k < length g)%nat -> (val (read_coordinate (hd k a) l1) < bpow radix2 1023)%R /\ (0 < place_of g k a l1 -> bpow radix2 (-1022) < val (read_coordinate (hd k a) l1))%R /\ (place_of g k a l1 <= 0 -> val (read_coordinate (hd k a) l1) <= 0)%R).
  { intros k a K. destruct (hd_ok k a l1 K) as (S1 & I1 & F1). apply (shows_bounds (hd k a) l1 _ S1 I1). apply (shows_read k a l1); [exact K|exact F1|reflexivity]. }
  destruct dbl_min_val as (FMN & VMN). destruct dbl_max_val as (FMX & VMX).
  split; [|split].
  - destruct (fold_min mins (dbl_max, two64 - 1) ltac:(apply fin_num, FMX)) as (FR & _ & LE). { intros t I. destruct (IMIN t I) as (k & a & K & _ & ->). apply NUM, K. }
    set (q := fold_left _ mins _) in *. clearbody q. destruct FR as (e & e' & I & I' & E1 & E2 & E3).
    assert (LT : (ext (fst q) < val dbl_max)%R). { destruct (MEM 0%nat G0) as (M0 & _). specialize (LE _ M0). destruct (IMIN _ M0) as (k & a & K & _ & E). rewrite E in LE. cbn [fst] in LE. rewrite (ext_val (read_coordinate (hd k a) l1)) in LE by apply hd_ok, K. pose proof (proj1 (TOP k a K)). lra. }
    assert (R' : In e' mins). { destruct I' as [<-|I']; [exfalso; rewrite E1 in LT; cbn [fst] in LT; rewrite ext_val in LT by exact FMX; lra|exact I']. }
    assert (R : In e mins). { destruct I as [<-|I]; [exfalso; rewrite E1, E2 in LT; cbn [fst] in LT; rewrite ext_val in LT by exact FMX; lra|exact I]. }
    destruct (IMIN e R) as (k & a & K & A & ->). destruct (IMIN e' R') as (k1 & a1 & K1 & _ & ->). cbn [fst snd] in *. exists k. rewrite E3. split; [exact K|]. split; [exact A|]. split.
    + apply shows_read; [exact K|rewrite E1; apply hd_ok, K1|congruence].
    + intros k' a' K' A'. apply val_order; [exact K|exact K'|]. rewrite <- E2, <- E1. destruct (MEM k' K') as (M' & _). specialize (LE _ M'). destruct (TF k' K') as (_ & _ & BD). specialize (BD a' A'). lra.
  - intros (kp & ap & KP & AP & POS). destruct (fold_max maxs (dbl_min, two64 - 1) ltac:(apply fin_num, FMN)) as (FR & _ & LE). { intros t I. destruct (IMAX t I) as (k & a & K & _ & ->). apply NUM, K. }
    set (q := fold_left _ maxs _) in *. clearbody q. destruct FR as (e & e' & I & I' & E1 & E2 & E3).
    assert (LT : (val dbl_min < ext (fst q))%R). { destruct (MEM kp KP) as (_ & M0). specialize (LE _ M0). destruct (TF kp KP) as (_ & _ & BD). specialize (BD ap AP). rewrite (ext_val (read_coordinate (hd kp ap) l1)) in BD by apply hd_ok, KP. destruct (TOP kp ap KP) as (_ & Q & _). specialize (Q POS). lra. }
    assert (R' : In e' maxs). { destruct I' as [<-|I']; [exfalso; rewrite E1 in LT; cbn [fst] in LT; rewrite ext_val in LT by exact FMN; lra|exact I']. }
    assert (R : In e maxs). { destruct I as [<-|I]; [exfalso; rewrite E1, E2 in LT; cbn [fst] in LT; rewrite ext_val in LT by exact FMN; lra|exact I]. }
    destruct (IMAX e R) as (k & a & K & A & ->). destruct (IMAX e' R') as (k1 & a1 & K1 & _ & ->). cbn [fst snd] in *. exists k. rewrite E3. split; [exact K|]. split; [exact A|]. split.
    + apply shows_read; [exact K|rewrite E1; apply hd_ok, K1|congruence].
    + intros k' a' K' A'. apply val_order; [exact K'|exact K|]. rewrite <- E2, <- E1. destruct (MEM k' K') as (_ & M'). specialize (LE _ M'). destruct (TF k' K') as (_ & _ & BD). specialize (BD a' A'). lra.
  - intros NP. apply fold_max_none; [apply fin_num, FMN|]. intros t I. destruct (IMAX t I) as (k & a & K & A & ->). cbn [fst]. split; [apply NUM, K|]. rewrite !ext_val by (first [exact FMN|apply hd_ok, K]). destruct (TOP k a K) as (_ & _ & Q). specialize (Q (NP k a K A)). rewrite VMN. pose proof (bpow_gt_0 radix2 (-1022)). lra.
Qed.
(** The four results of one call. *)
Definition good_result (l : Z) (small : bool) (e : elem) : Prop :=
  if small then set_extreme g true l e
  else ((exists k a, (k < length g)%nat /\ 0 <= a < traces_in g k /\ (0 < place_of g k a l)%R) -> set_extreme g false l e) /\
       ((forall k a, (k < length g)%nat -> 0 <= a < traces_in g k -> (place_of g k a l <= 0)%R) -> e = (dbl_min, two64 - 1)).
Lemma one_call sizes m1 l1 m2 l2 rl rl' : mm_rule (with_two m1 m2 rl) m1 l1 m2 l2 -> rl' = without_two m1 m2 rl -> exists x0 x1 y0 y1, set_getMinMax maxSize sizes m1 m2 fl p rl = Some ([x0; x1; y0; y1], rl') /\
  good_result l1 true x0 /\ good_result l1 false x1 /\ good_result l2 true y0 /\ good_result l2 false y1.
Proof.
  intros MR ->. unfold set_getMinMax. rewrite (omap_map _ (fun k => fun r => nth r (map (col l1 l2 k) (seq 0 p)) [])); [|intros k K; apply in_seq in K; apply set_values_rows; [exact MR|rewrite g_len; lia]]. cbn [obind].
  set (files := map _ (seq 0 (length fl))). set (zz := (d_of_Z 0, d_of_Z 0)).
  assert (AT : forall k r, (k < length g)%nat -> (r < p)%nat -> nth k files (fun _ => []) r = col l1 l2 k r).
  { intros k r K R. unfold files. set (h := fun k r => nth r (map (col l1 l2 k) (seq 0 p)) []). rewrite (nth_indep _ _ (h 0%nat)) by (rewrite map_length, seq_length, <- g_len; exact K). rewrite (map_nth h), seq_nth by (rewrite <- g_len; exact K). cbn [Nat.add]. unfold h.
    rewrite (nth_indep _ _ (col l1 l2 k 0%nat)) by (rewrite map_length, seq_length; exact R). rewrite (map_nth (col l1 l2 k)), seq_nth by exact R. reflexivity. }
  assert (LF : length files = length g) by (unfold files; rewrite map_length, seq_length; symmetry; apply g_len). clearbody files.
  destruct (search zz l1 l2 files LF (fun k K r R => AT k r K R)) as (X0 & X1 & X2).
  set (files' := map (fun f r => map swap (f r)) files). destruct (search zz l2 l1 files') as (Y0 & Y1 & Y2).
  { unfold files'. rewrite map_length. exact LF. }
  { intros k K r R. unfold files'. set (h := fun (f : nat -> list trc) r => map swap (f r)). rewrite (nth_indep _ _ (h (fun _ => []))) by (rewrite map_length, LF; exact K). rewrite (map_nth h). unfold h. rewrite AT by assumption. unfold col, rows. rewrite map_map. reflexivity. }
  do 4 eexists. split; [reflexivity|]. split; [exact X0|]. split; [split; [exact X1|exact X2]|]. split; [exact Y0|]. split; [exact Y1|exact Y2].
Qed.
Lemma three_calls sizes : exists es, example_minmax maxSize sizes fl p = Some es /\ length es = 12%nat /\ forall q, 0 <= q < 12 -> good_result (extreme_field q) (Z.even q) (nth (Z.to_nat q) es (dbl_min, 0)).
Proof.
  unfold example_minmax.
  destruct (one_call (sizes 0%nat) 20 73 21 77 set_rule rule1 rule_src rule1_eq) as (a0 & a1 & a2 & a3 & EA & A0 & A1 & A2 & A3). rewrite EA. cbn [obind].
  destruct (one_call (sizes 1%nat) 22 81 23 85 rule1 rule2 rule_rcv rule2_eq) as (b0 & b1 & b2 & b3 & EB & B0 & B1 & B2 & B3). rewrite EB. cbn [obind].
  remember (without_two 24 25 rule2) as rule3 eqn:E3. destruct (one_call (sizes 2%nat) 24 181 25 185 rule2 rule3 rule_cmp E3) as (c0 & c1 & c2 & c3 & EC & C0 & C1 & C2 & C3). rewrite EC. cbn [obind].
  eexists. split; [reflexivity|]. split; [reflexivity|]. intros q K.
  assert (CASE : q = 0 \/ q = 1 \/ q = 2 \/ q = 3 \/ q = 4 \/ q = 5 \/ q = 6 \/ q = 7 \/ q = 8 \/ q = 9 \/ q = 10 \/ q = 11) by lia. clear K.
  repeat (destruct CASE as [->|CASE]; [assumption|]). subst q. assumption.
Qed.
End Search.
