(** The report on a set of files does not depend on the order of the files. *)
From Coq Require Import Reals Lra Permutation Sorted.
From Flocq Require Import Core IEEE754.BinarySingleNaN Relative.
From Verif Require Import Base DecompModel DecompSpec DecompProofs NumEncModel NumEncSpec NumEncProofs CharEncModel CharEncProofs LayoutModel LayoutProofs DataIOModel DataIOProofs
  RuleModel RuleProofs DoubleModel ParamModel ParamProofs HeaderProofs ScalarProofs FileSpec FileModel FileProofs WriteSpec WriteProofs RuleProperties ParamProperties ReadProofs OpenProofs FileProperties TraceProperties.
From Verif Require Import SortSpec SortModel SortProofs CompProofs MinMaxModel MinMaxProofs MinMaxProperties FloatModel SetOpsModel ToolModel ToolProperties CopySpec CopyProofs CopyProperties ExampleModel ExampleProofs PieceProofs CreateProofs ModModel ModSpec ModProofs.
From Verif Require Import FlowModel FlowProofs SetFileModel SetFileProofs SetOutProofs.
From Verif Require SetSortProofs VerifyProofs MultiSortProofs MultiRankProofs.
From Verif Require Import SetSortSpec ExtremeModel ExtremeSpec ExtremeProofs ExtremeRows MultiSortSpec SetExtremeModel SetExtremeSpec SetExtremeProofs.
Import ListNotations.
Open Scope Z_scope.

Lemma least_min t m : num (fst t) -> num (fst m) -> forall x, In x [t; m] -> ext (fst x) = ext (fst (upd_min t m)) -> snd (upd_min t m) <= snd x.
Proof.
  intros T M x X. unfold upd_min. pose proof (deqb_spec _ _ T M) as E. pose proof (dltb_spec _ _ T M) as L. destruct (deqb (fst t) (fst m)).
  - intros _. cbn [snd]. destruct X as [<-|[<-|[]]]; lia.
  - assert (N : ext (fst t) <> ext (fst m)) by (intros Q; apply E in Q; discriminate). destruct (dltb (fst t) (fst m)); intros Q; (destruct X as [<-|[<-|[]]]; [|]); first [congruence|lia].
Qed.
Lemma least_max t m : num (fst t) -> num (fst m) -> forall x, In x [t; m] -> ext (fst x) = ext (fst (upd_max t m)) -> snd (upd_max t m) <= snd x.
Proof.
  intros T M x X. unfold upd_max. pose proof (deqb_spec _ _ T M) as E. destruct (deqb (fst t) (fst m)).
  - intros _. cbn [snd]. destruct X as [<-|[<-|[]]]; lia.
  - assert (N : ext (fst t) <> ext (fst m)) by (intros Q; apply E in Q; discriminate). destruct (dltb (fst m) (fst t)); intros Q; (destruct X as [<-|[<-|[]]]; [|]); first [congruence|lia].
Qed.
Lemma fold_least_min : forall ts m, num (fst m) -> (forall t, In t ts -> num (fst t)) -> let q := fold_left (fun m t => upd_min t m) ts m in forall x, In x (m :: ts) -> ext (fst x) = ext (fst q) -> snd q <= snd x.
Proof.
  induction ts as [|t ts IH]; intros m M T q x X E; [destruct X as [<-|[]]; apply Z.le_refl|].
  cbn [fold_left] in q. pose proof (T t (or_introl eq_refl)) as NT. destruct (step_min t m NT M) as (_ & N & L1 & L2). destruct (fold_min ts (upd_min t m) N (fun y Y => T y (or_intror Y))) as (_ & L & _). fold q in L.
  specialize (IH (upd_min t m) N (fun y Y => T y (or_intror Y))). cbv zeta in IH. fold q in IH.
  assert (C : In x [t; m] -> snd q <= snd x).
  { intros I. assert (EQ : ext (fst (upd_min t m)) = ext (fst q)) by (destruct I as [<-|[<-|[]]]; lra). eapply Z.le_trans; [apply (IH (upd_min t m) (or_introl eq_refl) EQ)|]. apply least_min; [exact NT|exact M|exact I|congruence]. }
  destruct X as [<-|[<-|X]]; [apply C; cbn; auto|apply C; cbn; auto|]. apply IH; [right; exact X|exact E].
Qed.
Lemma fold_least_max : forall ts m, num (fst m) -> (forall t, In t ts -> num (fst t)) -> let q := fold_left (fun m t => upd_max t m) ts m in forall x, In x (m :: ts) -> ext (fst x) = ext (fst q) -> snd q <= snd x.
Proof.
  induction ts as [|t ts IH]; intros m M T q x X E; [destruct X as [<-|[]]; apply Z.le_refl|].
  cbn [fold_left] in q. pose proof (T t (or_introl eq_refl)) as NT. destruct (step_max t m NT M) as (_ & N & L1 & L2). destruct (fold_max ts (upd_max t m) N (fun y Y => T y (or_intror Y))) as (_ & L & _). fold q in L.
  specialize (IH (upd_max t m) N (fun y Y => T y (or_intror Y))). cbv zeta in IH. fold q in IH.
  assert (C : In x [t; m] -> snd q <= snd x).
  { intros I. assert (EQ : ext (fst (upd_max t m)) = ext (fst q)) by (destruct I as [<-|[<-|[]]]; lra). eapply Z.le_trans; [apply (IH (upd_max t m) (or_introl eq_refl) EQ)|]. apply least_max; [exact NT|exact M|exact I|congruence]. }
  destruct X as [<-|[<-|X]]; [apply C; cbn; auto|apply C; cbn; auto|]. apply IH; [right; exact X|exact E].
Qed.
Definition same_elem (e e' : elem) : Prop := fin (fst e) /\ fin (fst e') /\ val (fst e) = val (fst e') /\ snd e = snd e'.
Lemma fin_ext v : fin v -> ext v = val v. Proof. intros F. rewrite ext_fin by exact F. reflexivity. Qed.
Lemma perm_min ts ts' m : Permutation ts ts' -> fin (fst m) -> (forall t, In t ts -> fin (fst t)) -> same_elem (fold_left (fun m t => upd_min t m) ts m) (fold_left (fun m t => upd_min t m) ts' m).
Proof.
  intros PM M T. assert (T' : forall t, In t ts' -> fin (fst t)) by (intros t I; apply T, (Permutation_in _ (Permutation_sym PM) I)).
  assert (N : forall t, In t ts -> num (fst t)) by (intros; apply fin_num, T; assumption). assert (N' : forall t, In t ts' -> num (fst t)) by (intros; apply fin_num, T'; assumption). assert (NM : num (fst m)) by (apply fin_num, M).
  destruct (fold_min ts m NM N) as ((e & e' & I & I' & E1 & E2 & E3) & L1 & L2). destruct (fold_min ts' m NM N') as ((d & d' & J & J' & F1 & F2 & F3) & K1 & K2).
  pose proof (fold_least_min ts m NM N) as G. pose proof (fold_least_min ts' m NM N') as G'. cbv zeta in *. set (q := fold_left (fun m t => upd_min t m) ts m) in *. set (q' := fold_left (fun m t => upd_min t m) ts' m) in *. clearbody q q'.
  assert (A : forall x, In x (m :: ts) <-> In x (m :: ts')) by (intros x; split; intros [<-|X]; [left; reflexivity|right; apply (Permutation_in _ PM X)|left; reflexivity|right; apply (Permutation_in _ (Permutation_sym PM) X)]).
  assert (B1 : forall x, In x (m :: ts) -> (ext (fst q) <= ext (fst x))%R) by (intros x [<-|X]; [exact L1|apply L2, X]). assert (B2 : forall x, In x (m :: ts') -> (ext (fst q') <= ext (fst x))%R) by (intros x [<-|X]; [exact K1|apply K2, X]).
  assert (EQ : ext (fst q) = ext (fst q')). { pose proof (B1 d' (proj2 (A d') J')) as U. pose proof (B2 e' (proj1 (A e') I')) as V. rewrite <- F1 in U. rewrite <- E1 in V. lra. }
  assert (Q1 : fin (fst q)) by (rewrite E1; destruct I' as [<-|I']; [exact M|apply T, I']). assert (Q2 : fin (fst q')) by (rewrite F1; destruct J' as [<-|J']; [exact M|apply T', J']).
  split; [exact Q1|]. split; [exact Q2|]. split; [rewrite !fin_ext in EQ by assumption; exact EQ|].
  assert (H1 : snd q <= snd d) by (apply G; [apply A, J|rewrite <- F2, <- F1; congruence]). assert (H2 : snd q' <= snd e) by (apply G'; [apply A, I|rewrite <- E2, <- E1; congruence]). rewrite E3, F3 in *. lia.
Qed.
Lemma perm_max ts ts' m : Permutation ts ts' -> fin (fst m) -> (forall t, In t ts -> fin (fst t)) -> same_elem (fold_left (fun m t => upd_max t m) ts m) (fold_left (fun m t => upd_max t m) ts' m).
Proof.
  intros PM M T. assert (T' : forall t, In t ts' -> fin (fst t)) by (intros t I; apply T, (Permutation_in _ (Permutation_sym PM) I)).
  assert (N : forall t, In t ts -> num (fst t)) by (intros; apply fin_num, T; assumption). assert (N' : forall t, In t ts' -> num (fst t)) by (intros; apply fin_num, T'; assumption). assert (NM : num (fst m)) by (apply fin_num, M).
  destruct (fold_max ts m NM N) as ((e & e' & I & I' & E1 & E2 & E3) & L1 & L2). destruct (fold_max ts' m NM N') as ((d & d' & J & J' & F1 & F2 & F3) & K1 & K2).
  pose proof (fold_least_max ts m NM N) as G. pose proof (fold_least_max ts' m NM N') as G'. cbv zeta in *. set (q := fold_left (fun m t => upd_max t m) ts m) in *. set (q' := fold_left (fun m t => upd_max t m) ts' m) in *. clearbody q q'.
  assert (A : forall x, In x (m :: ts) <-> In x (m :: ts')) by (intros x; split; intros [<-|X]; [left; reflexivity|right; apply (Permutation_in _ PM X)|left; reflexivity|right; apply (Permutation_in _ (Permutation_sym PM) X)]).
  assert (B1 : forall x, In x (m :: ts) -> (ext (fst x) <= ext (fst q))%R) by (intros x [<-|X]; [exact L1|apply L2, X]). assert (B2 : forall x, In x (m :: ts') -> (ext (fst x) <= ext (fst q'))%R) by (intros x [<-|X]; [exact K1|apply K2, X]).
  assert (EQ : ext (fst q) = ext (fst q')). { pose proof (B1 d' (proj2 (A d') J')) as U. pose proof (B2 e' (proj1 (A e') I')) as V. rewrite <- F1 in U. rewrite <- E1 in V. lra. }
  assert (Q1 : fin (fst q)) by (rewrite E1; destruct I' as [<-|I']; [exact M|apply T, I']). assert (Q2 : fin (fst q')) by (rewrite F1; destruct J' as [<-|J']; [exact M|apply T', J']).
  split; [exact Q1|]. split; [exact Q2|]. split; [rewrite !fin_ext in EQ by assumption; exact EQ|].
  assert (H1 : snd q <= snd d) by (apply G; [apply A, J|rewrite <- F2, <- F1; congruence]). assert (H2 : snd q' <= snd e) by (apply G'; [apply A, I|rewrite <- E2, <- E1; congruence]). rewrite E3, F3 in *. lia.
Qed.
Lemma perm_minmax junk p files files' : Permutation files files' -> (forall f, In f files -> let t := getCoordMinMax junk p (off_of_file f) f in fin (fst (fst t)) /\ fin (fst (snd t))) ->
  same_elem (fst (set_minmax junk p files)) (fst (set_minmax junk p files')) /\ same_elem (snd (set_minmax junk p files)) (snd (set_minmax junk p files')).
Proof.
  intros PM FF. unfold set_minmax. set (T := fun f => getCoordMinMax junk p (off_of_file f) f) in *.
  rewrite !(fold_pair T). cbn [fst snd]. destruct dbl_min_val as (FMN & _). destruct dbl_max_val as (FMX & _).
  split; [apply perm_min|apply perm_max]; try (apply Permutation_map, PM); try assumption; intros t I; apply in_map_iff in I; destruct I as (f & <- & I); apply (FF f I).
Qed.
(** The values of one file on every rank. *)
Definition colx (p : nat) (l1 l2 : Z) (x : reader * file) : nat -> list trc :=
  fun r => nth r (map (fun r => rows (snd x) (fst x) l1 l2 (off_of (r_nt (fst x)) (Z.of_nat p) (Z.of_nat r)) (sz_of (r_nt (fst x)) (Z.of_nat p) (Z.of_nat r))) (seq 0 p)) [].
Section Order.
Context (maxSize : Z) (p : nat) (P : (0 < p)%nat).
Definition ready (fl : list (gkey * (reader * file))) : Prop := fl <> [] /\ (forall k, (k < length (map snd fl))%nat -> exists s, readable maxSize s (snd (nth k (map snd fl) no_input)) (fst (nth k (map snd fl) no_input))) /\
  forall k, gsum k (map (fun x => (fst x, r_nt (fst (snd x)))) fl) < two64.
Lemma call_form fl sizes m1 l1 m2 l2 rl : ready fl -> mm_rule (with_two m1 m2 rl) m1 l1 m2 l2 -> let zz := (d_of_Z 0, d_of_Z 0) in let fs := map (colx p l1 l2) (map snd fl) in let fs' := map (fun f r => map swap (f r)) fs in
  set_getMinMax maxSize sizes m1 m2 fl p rl = Some ([fst (set_minmax zz p fs); snd (set_minmax zz p fs); fst (set_minmax zz p fs'); snd (set_minmax zz p fs')], without_two m1 m2 rl) /\
  (forall f, In f fs -> let t := getCoordMinMax zz p (off_of_file f) f in fin (fst (fst t)) /\ fin (fst (snd t))) /\ (forall f, In f fs' -> let t := getCoordMinMax zz p (off_of_file f) f in fin (fst (fst t)) /\ fin (fst (snd t))).
Proof.
  intros (NE & RB & B) MR zz fs fs'. unfold set_getMinMax.
  rewrite (omap_map _ (fun k => colx p l1 l2 (nth k (map snd fl) no_input))).
  2:{ intros k K. apply in_seq in K. rewrite (set_values_rows maxSize fl p P RB B sizes (with_two m1 m2 rl) m1 l1 m2 l2 k MR) by (rewrite map_length; lia). reflexivity. }
  cbn [obind]. assert (EF : map (fun k => colx p l1 l2 (nth k (map snd fl) no_input)) (seq 0 (length fl)) = fs).
  { unfold fs. rewrite <- (map_length snd fl). set (g := map snd fl). clearbody g. clear. rewrite <- (map_map (fun k => nth k g no_input) (colx p l1 l2)). f_equal. apply nth_ext with (d := no_input) (d' := no_input); [rewrite map_length, seq_length; reflexivity|]. intros n N. rewrite map_length, seq_length in N. rewrite (nth_indep _ _ (nth 0%nat g no_input)) by (rewrite map_length, seq_length; exact N). rewrite (map_nth (fun k => nth k g no_input)), seq_nth by exact N. reflexivity. }
  rewrite EF. clear EF. split; [reflexivity|].
  assert (CX : forall k l1 l2 r, (r < p)%nat -> colx p l1 l2 (nth k (map snd fl) no_input) r = col fl p l1 l2 k r).
  { intros k a b r R. unfold colx. set (h := fun r : nat => rows _ _ _ _ _ _). rewrite (nth_indep _ _ (h 0%nat)) by (rewrite map_length, seq_length; exact R). rewrite (map_nth h), seq_nth by exact R. reflexivity. }
  assert (ONE : forall k a b (dat : nat -> list trc), (k < length (map snd fl))%nat -> (forall r, (r < p)%nat -> dat r = col fl p a b k r) -> let t := getCoordMinMax zz p (off_of_file dat) dat in fin (fst (fst t)) /\ fin (fst (snd t))).
  { intros k a b dat K D t. destruct (column_extremes maxSize fl p P RB zz a b k dat K D) as ((x & _ & E) & (y & _ & E') & _). fold t in E, E'. rewrite E, E'. split; apply (hd_ok maxSize fl RB); exact K. }
  split.
  - intros f I. unfold fs in I. apply in_map_iff in I. destruct I as (x & <- & I). apply (In_nth _ _ no_input) in I. destruct I as (k & K & <-). apply (ONE k l1 l2); [exact K|]. intros r R. apply CX, R.
  - intros f I. unfold fs', fs in I. rewrite map_map in I. apply in_map_iff in I. destruct I as (x & <- & I). apply (In_nth _ _ no_input) in I. destruct I as (k & K & <-). apply (ONE k l2 l1); [exact K|]. intros r R. rewrite CX by exact R. unfold col, rows. rewrite map_map. reflexivity.
Qed.
Lemma call_order fl fl' sizes sizes' m1 l1 m2 l2 rl rl' : ready fl -> ready fl' -> Permutation fl fl' -> mm_rule (with_two m1 m2 rl) m1 l1 m2 l2 -> rl' = without_two m1 m2 rl -> exists a b,
  set_getMinMax maxSize sizes m1 m2 fl p rl = Some (a, rl') /\ set_getMinMax maxSize sizes' m1 m2 fl' p rl = Some (b, rl') /\ Forall2 same_elem a b.
Proof.
  intros R R' PM MR ->. destruct (call_form fl sizes m1 l1 m2 l2 rl R MR) as (E & F1 & F2). destruct (call_form fl' sizes' m1 l1 m2 l2 rl R' MR) as (E' & _ & _). rewrite E, E'. do 2 eexists. split; [reflexivity|]. split; [reflexivity|].
  assert (P1 : Permutation (map (colx p l1 l2) (map snd fl)) (map (colx p l1 l2) (map snd fl'))) by (apply Permutation_map, Permutation_map, PM).
  destruct (perm_minmax _ p _ _ P1 F1) as (A1 & A2). destruct (perm_minmax _ p _ _ (Permutation_map (fun f r => map swap (f r)) P1) F2) as (A3 & A4).
  repeat (constructor; [assumption|]). constructor.
Qed.
Lemma report_order fl fl' sizes sizes' : ready fl -> ready fl' -> Permutation fl fl' -> exists a b, example_minmax maxSize sizes fl p = Some a /\ example_minmax maxSize sizes' fl' p = Some b /\ Forall2 same_elem a b.
Proof.
  intros R R' PM. unfold example_minmax. remember (without_two 24 25 rule2) as rule3 eqn:E3.
  destruct (call_order fl fl' (sizes 0%nat) (sizes' 0%nat) 20 73 21 77 set_rule rule1 R R' PM rule_src rule1_eq) as (a & b & EA & EB & S1). rewrite EA, EB. cbn [obind].
  destruct (call_order fl fl' (sizes 1%nat) (sizes' 1%nat) 22 81 23 85 rule1 rule2 R R' PM rule_rcv rule2_eq) as (c & d & EC & ED & S2). rewrite EC, ED. cbn [obind].
  destruct (call_order fl fl' (sizes 2%nat) (sizes' 2%nat) 24 181 25 185 rule2 rule3 R R' PM rule_cmp E3) as (x & y & EX & EY & S3). rewrite EX, EY. cbn [obind].
  do 2 eexists. split; [reflexivity|]. split; [reflexivity|]. apply Forall2_app; [exact S1|]. apply Forall2_app; [exact S2|exact S3].
Qed.
End Order.
