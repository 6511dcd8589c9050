(** C50-C56: sorting. *)
From Coq Require Import Sorted Permutation Reals Lra Lia.
From Flocq Require Import Core IEEE754.BinarySingleNaN.
From Verif Require Import Base DecompModel DecompProofs DataIOModel DataIOProofs RuleModel DoubleModel ParamModel ScalarProofs SortSpec SortModel SortProofs CompProofs.
Open Scope Z_scope.

(** ---- C50 ---- *)
(** The keys of the sort types of SortType.h, most important first. *)
Definition dist2 (a : geo) : R := ext (off (g_sx a) (g_sy a) (g_rx a) (g_ry a)).
Definition stored (a : geo) : R := ext (d_of_Z (g_off a)).
Definition keys (type : Z) (a : geo) : list R :=
  let src := [ext (g_sx a); ext (g_sy a)] in let rcv := [ext (g_rx a); ext (g_ry a)] in
  let line := [IZR (g_il a); IZR (g_xl a)] in let num := [IZR (g_ltn a)] in
  match type with
  | 35 => src ++ rcv ++ num
  | 36 => src ++ [dist2 a] ++ num
  | 37 => src ++ [stored a] ++ num
  | 38 => rcv ++ [dist2 a] ++ num
  | 39 => rcv ++ [stored a] ++ num
  | 40 => line ++ [dist2 a] ++ num
  | 41 => line ++ [stored a] ++ num
  | 42 => [dist2 a] ++ line ++ num
  | 43 => [stored a] ++ line ++ num
  | _ => []
  end.
(** No NaN or infinity among the coordinates. *)
Definition finite_geo (a : geo) : Prop :=
  is_finite (g_sx a) = true /\ is_finite (g_sy a) = true /\ is_finite (g_rx a) = true /\ is_finite (g_ry a) = true.

Lemma offset_num calc a : finite_geo a -> num (offset_of calc a).
Proof. intros (A & B & C & E). destruct calc; [apply off_num; assumption|apply of_Z_num]. Qed.
Lemma d_step x y l m c : is_finite x = true -> is_finite y = true -> (c = true <-> lex l m) ->
  (if dltb x y then true else if deqb x y then c else false) = true <-> lex (ext x :: l) (ext y :: m).
Proof. intros X Y C. apply step; [apply dltb_spec|apply deqb_spec|exact C]; apply fin_num; assumption. Qed.
Lemma z_step x y l m c : (c = true <-> lex l m) -> (if x <? y then true else if x =? y then c else false) = true <-> lex (IZR x :: l) (IZR y :: m).
Proof. intros C. apply step; [apply ltb_IZR|apply eqb_IZR|exact C]. Qed.
Lemma o_step calc a b l m c : finite_geo a -> finite_geo b -> (c = true <-> lex l m) ->
  (if dltb (offset_of calc a) (offset_of calc b) then true else if deqb (offset_of calc a) (offset_of calc b) then c else false) = true
  <-> lex (ext (offset_of calc a) :: l) (ext (offset_of calc b) :: m).
Proof. intros A B C. apply step; [apply dltb_spec|apply deqb_spec|exact C]; apply offset_num; assumption. Qed.
Lemma n_step a b : (g_ltn a <? g_ltn b) = true <-> lex [IZR (g_ltn a)] [IZR (g_ltn b)].
Proof. apply last_step, ltb_IZR. Qed.
Lemma ol_step calc a b : finite_geo a -> finite_geo b -> less_off_ltn calc a b = true <-> lex [ext (offset_of calc a); IZR (g_ltn a)] [ext (offset_of calc b); IZR (g_ltn b)].
Proof. intros A B. unfold less_off_ltn. rewrite orb_if. apply o_step; [assumption|assumption|apply n_step]. Qed.

Theorem C50_orders_compare_keys : forall type a b, 35 <= type <= 43 -> finite_geo a -> finite_geo b ->
  getComp type a b = true <-> lex (keys type a) (keys type b).
Proof.
  intros type a b T FA FB. pose proof FA as (A1 & A2 & A3 & A4). pose proof FB as (B1 & B2 & B3 & B4).
  assert (C : type = 35 \/ type = 36 \/ type = 37 \/ type = 38 \/ type = 39 \/ type = 40 \/ type = 41 \/ type = 42 \/ type = 43) by lia.
  assert (LL : forall c, lessLineOff c a b = true <-> lex [IZR (g_il a); IZR (g_xl a); ext (offset_of c a); IZR (g_ltn a)] [IZR (g_il b); IZR (g_xl b); ext (offset_of c b); IZR (g_ltn b)])
    by (intros c; unfold lessLineOff; apply z_step, z_step, ol_step; assumption).
  assert (OL : forall c, lessOffLine c a b = true <-> lex [ext (offset_of c a); IZR (g_il a); IZR (g_xl a); IZR (g_ltn a)] [ext (offset_of c b); IZR (g_il b); IZR (g_xl b); IZR (g_ltn b)])
    by (intros c; unfold lessOffLine; apply o_step; [assumption|assumption|]; apply z_step; rewrite orb_if; apply z_step, n_step).
  assert (SO : forall c, lessSrcOff c a b = true <-> lex [ext (g_sx a); ext (g_sy a); ext (offset_of c a); IZR (g_ltn a)] [ext (g_sx b); ext (g_sy b); ext (offset_of c b); IZR (g_ltn b)])
    by (intros c; unfold lessSrcOff; apply d_step; [assumption|assumption|]; apply d_step; [assumption|assumption|]; apply ol_step; assumption).
  assert (RO : forall c, lessRcvOff c a b = true <-> lex [ext (g_rx a); ext (g_ry a); ext (offset_of c a); IZR (g_ltn a)] [ext (g_rx b); ext (g_ry b); ext (offset_of c b); IZR (g_ltn b)])
    by (intros c; unfold lessRcvOff; apply d_step; [assumption|assumption|]; apply d_step; [assumption|assumption|]; apply ol_step; assumption).
  destruct C as [->|[->|[->|[->|[->|[->|[->|[->| ->]]]]]]]]; [|exact (SO true)|exact (SO false)|exact (RO true)|exact (RO false)|exact (LL true)|exact (LL false)|exact (OL true)|exact (OL false)].
  change (lessSrcRcv a b = true <-> lex [ext (g_sx a); ext (g_sy a); ext (g_rx a); ext (g_ry a); IZR (g_ltn a)] [ext (g_sx b); ext (g_sy b); ext (g_rx b); ext (g_ry b); IZR (g_ltn b)]).
  unfold lessSrcRcv. apply d_step; [assumption|assumption|]. apply d_step; [assumption|assumption|]. apply d_step; [assumption|assumption|]. apply d_step; [assumption|assumption|]. apply n_step.
Qed.
Print Assumptions C50_orders_compare_keys.
(** With whole coordinates up to 2^24 the squared distance is exact. *)
Theorem C50_distance_exact : forall a sx sy rx ry, finite_geo a -> B2R (g_sx a) = IZR sx -> B2R (g_sy a) = IZR sy -> B2R (g_rx a) = IZR rx -> B2R (g_ry a) = IZR ry ->
  Z.abs sx <= 2 ^ 24 -> Z.abs sy <= 2 ^ 24 -> Z.abs rx <= 2 ^ 24 -> Z.abs ry <= 2 ^ 24 ->
  dist2 a = IZR ((sx - rx) * (sx - rx) + (sy - ry) * (sy - ry)).
Proof.
  intros a sx sy rx ry (A & B & C & E) V1 V2 V3 V4 H1 H2 H3 H4.
  destruct (off_whole (g_sx a) (g_sy a) (g_rx a) (g_ry a) sx sy rx ry) as (F & V); try assumption; try (split; assumption).
  unfold dist2. rewrite ext_fin by exact F. exact V.
Qed.
Print Assumptions C50_distance_exact.
Definition same_ltn_same (P : geo -> Prop) : Prop := forall a b, P a -> P b -> g_ltn a = g_ltn b -> a = b.
Theorem C50_orders_total : forall type (P : geo -> Prop), 35 <= type <= 43 -> (forall a, P a -> finite_geo a) -> same_ltn_same P -> strict_total P (getComp type).
Proof.
  intros type P T F I. assert (C : type = 35 \/ type = 36 \/ type = 37 \/ type = 38 \/ type = 39 \/ type = 40 \/ type = 41 \/ type = 42 \/ type = 43) by lia.
  apply (keys_total P _ (keys type)).
  - intros a b A B. apply C50_orders_compare_keys; auto.
  - intros a b _ _. destruct C as [->|[->|[->|[->|[->|[->|[->|[->| ->]]]]]]]]; reflexivity.
  - intros a b A B E. apply I; [assumption|assumption|]. apply eq_IZR. apply (f_equal (fun l => last l 0%R)) in E.
    destruct C as [->|[->|[->|[->|[->|[->|[->|[->| ->]]]]]]]]; exact E.
Qed.
Print Assumptions C50_orders_total.
Definition geo_demo (x n : Z) : geo := mkGeo (d_of_Z x) (d_of_Z 2) (d_of_Z 3) (d_of_Z 4) 5 6 7 n.
Example C50_demo : let P := fun a => In a [geo_demo 1 0; geo_demo (-1) 1; geo_demo 1 2] in
  (forall a, P a -> finite_geo a) /\ same_ltn_same P /\ getComp 35 (geo_demo (-1) 1) (geo_demo 1 0) = true /\ getComp 35 (geo_demo 1 0) (geo_demo 1 2) = true.
Proof.
  cbv zeta. split; [|split].
  - intros a [<-|[<-|[<-|[]]]]; vm_compute; auto.
  - intros a b [<-|[<-|[<-|[]]]] [<-|[<-|[<-|[]]]] E; try reflexivity; exfalso; revert E; vm_compute; discriminate.
  - split; vm_compute; reflexivity.
Qed.
(** A NaN coordinate breaks what std::sort needs of its order. *)
Theorem C50_nan_refuted : exists a b c, g_ltn a < g_ltn b < g_ltn c /\ forall type, type = 35 \/ type = 36 \/ type = 37 -> ~ strict_weak (fun x => In x [a; b; c]) (getComp type).
Proof.
  set (g := fun x n => mkGeo x (d_of_Z 0) (d_of_Z 0) (d_of_Z 0) 0 0 0 n).
  exists (g (d_of_Z 1) 0), (g B754_nan 1), (g (d_of_Z 2) 2). split; [cbn [g g_ltn]; lia|]. intros type T (_ & _ & W).
  specialize (W (g (d_of_Z 1) 0) (g B754_nan 1) (g (d_of_Z 2) 2) ltac:(cbn [In]; auto) ltac:(cbn [In]; auto) ltac:(cbn [In]; auto)).
  destruct T as [->|[->| ->]]; vm_compute in W; discriminate (W eq_refl eq_refl eq_refl eq_refl).
Qed.
Print Assumptions C50_nan_refuted.
(** A negative offset entry counts as huge: -1 sorts after 5, and -1 and -2 are
    not told apart. *)
Theorem C50_negative_offset_refuted : exists o1 o2 o5, asU (VI (-1)) = Some o1 /\ asU (VI (-2)) = Some o2 /\ asU (VI 5) = Some o5 /\
  forall sx sy rx ry il xl n m, finite_geo (mkGeo sx sy rx ry il xl 0 0) ->
    getComp 41 (mkGeo sx sy rx ry il xl o5 n) (mkGeo sx sy rx ry il xl o1 m) = true /\
    (n < m -> getComp 41 (mkGeo sx sy rx ry il xl o1 n) (mkGeo sx sy rx ry il xl o2 m) = true).
Proof.
  do 3 eexists. split; [reflexivity|]. split; [reflexivity|]. split; [reflexivity|]. intros sx sy rx ry il xl n m F.
  unfold getComp. cbn [Z.eqb Pos.eqb]. unfold lessLineOff. cbn [g_il g_xl]. rewrite !Z.ltb_irrefl, !Z.eqb_refl. unfold less_off_ltn, offset_of. cbn [g_off g_ltn].
  split; [|intros H; apply Z.ltb_lt in H; rewrite H]; apply orb_true_iff; [left; vm_compute; reflexivity|right; rewrite andb_true_r; vm_compute; reflexivity].
Qed.
Print Assumptions C50_negative_offset_refuted.

(** ---- C51 ---- *)
Theorem C51_getSortIndex : forall srt l, std_sort srt -> Permutation (seq 0 (length l)) (getSortIndex srt l) /\
  StronglySorted Z.le (map (fun i => nth i l 0) (getSortIndex srt l)).
Proof.
  intros srt l S. unfold getSortIndex.
  destruct (S nat (fun s1 s2 => nth s1 l 0 <? nth s2 l 0) (seq 0 (length l))) as (P & O).
  { split; [intros; apply Z.ltb_irrefl|]. split; [intros x y z _ _ _; rewrite !Z.ltb_lt; lia|intros x y z _ _ _; rewrite !Z.ltb_ge; lia]. }
  split; [exact P|]. clear P. induction O as [|x m O IH F]; [constructor|]. cbn [map]. constructor.
  - apply IH. 
  - rewrite Forall_forall in *. intros v V. apply in_map_iff in V. destruct V as (y & <- & Y). specialize (F y Y). apply Z.ltb_ge in F. exact F.
Qed.
Print Assumptions C51_getSortIndex.
Example C51_demo : std_sort isort /\ getSortIndex isort [30; 10; 20] = [1; 2; 0]%nat.
Proof. split; [apply isort_std|reflexivity]. Qed.

(** ---- C52, C53 ---- *)
(** The traces of the ranks, told apart by their global number. *)
Definition told_apart {A} (gtn : A -> Z) (l : list A) : Prop := forall x y, In x l -> In y l -> gtn x = gtn y -> x = y.
Theorem C52_sorted_permutation : forall A (srt : sorter) (comp : A -> A -> bool) (gtn : A -> Z) zero p prm fuel fuel2 out final,
  std_sort srt -> (0 < p)%nat -> (forall r, (r < p)%nat -> (4 <= length (prm r))%nat) ->
  strict_weak (fun x => In x (all p prm)) comp -> told_apart gtn (all p prm) ->
  sort_metadata fuel fuel2 srt comp gtn zero p prm = Some (out, final) ->
  Permutation (all p prm) (all p out) /\ sorted comp (all p out) /\ forall r, (r < p)%nat -> length (out r) = length (prm r).
Proof.
  intros A srt comp gtn zero p prm fuel fuel2 out final S P L W T H. unfold sort_metadata in H.
  destruct (nn_sort _ _ _ _ _ _ _ _) as [o|] eqn:E; [|discriminate]. cbn [obind] in H. destruct (sort_list _ _ _ _) as [l|]; [|discriminate]. cbn [obind] in H. injection H as <- <-.
  destruct (nn_sort_result srt comp (fun a b => negb (gtn a =? gtn b)) zero p (regionSz p prm) prm S P W) with (fuel := fuel) (out := o) as (R1 & R2 & R3).
  - intros x y X Y Q. apply T; [assumption|assumption|]. apply negb_false_iff, Z.eqb_eq in Q. exact Q.
  - intros r Hr. apply region_le, Hr.
  - intros _. apply region_pos; assumption.
  - exact E.
  - auto.
Qed.
Print Assumptions C52_sorted_permutation.
(** The same for the orders the library offers. *)
Theorem C52_sorted_by_type : forall type srt (gtn : geo -> Z) zero p prm fuel fuel2 out final,
  35 <= type <= 43 -> std_sort srt -> (0 < p)%nat -> (forall r, (r < p)%nat -> (4 <= length (prm r))%nat) ->
  (forall a, In a (all p prm) -> finite_geo a) -> same_ltn_same (fun a => In a (all p prm)) -> told_apart gtn (all p prm) ->
  sort_metadata fuel fuel2 srt (getComp type) gtn zero p prm = Some (out, final) ->
  Permutation (all p prm) (all p out) /\ StronglySorted (fun a b => ~ lex (keys type b) (keys type a)) (all p out).
Proof.
  intros type srt gtn zero p prm fuel fuel2 out final T S P L F I G H.
  destruct (C52_sorted_permutation geo srt (getComp type) gtn zero p prm fuel fuel2 out final S P L) as (R1 & R2 & _); try assumption.
  - apply total_weak, C50_orders_total; assumption.
  - split; [exact R1|]. assert (F' : forall a, In a (all p out) -> finite_geo a) by (intros a X; apply F, (Permutation_in _ (Permutation_sym R1)), X).
    clear -R2 F' T. unfold sorted in R2. induction R2 as [|x l S IH Q]; [constructor|]. constructor; [apply IH; intros; apply F'; right; assumption|].
    rewrite Forall_forall in *. intros y Y K. specialize (Q y Y). apply (C50_orders_compare_keys type y x T) in K; [congruence| |]; apply F'; [right; exact Y|left; reflexivity].
Qed.
Print Assumptions C52_sorted_by_type.
Theorem C53_terminates : forall A (srt : sorter) (comp : A -> A -> bool) (gtn : A -> Z) zero p prm,
  std_sort srt -> (0 < p)%nat -> strict_total (fun x => In x (all p prm)) comp -> NoDup (all p prm) -> told_apart gtn (all p prm) ->
  exists n, forall fuel, (n <= fuel)%nat -> exists n2, forall fuel2, (n2 <= fuel2)%nat -> exists res, sort_metadata fuel fuel2 srt comp gtn zero p prm = Some res.
Proof.
  intros A srt comp gtn zero p prm S P T N G.
  destruct (nn_sort_stops srt comp (fun a b => negb (gtn a =? gtn b)) zero p (regionSz p prm) prm S P) as (n & H).
  - apply total_weak, T.
  - intros x y X Y Q. apply G; [assumption|assumption|]. apply negb_false_iff, Z.eqb_eq in Q. exact Q.
  - intros r Hr. apply region_le, Hr.
  - exact T.
  - exact N.
  - intros x _. rewrite Z.eqb_refl. reflexivity.
  - exists n. intros fuel F. destruct (H fuel F) as (o & E). destruct (sort_list_stops srt p (fun r => map gtn (o r)) S P) as (n2 & H2).
    exists n2. intros fuel2 F2. destruct (H2 fuel2 F2) as (l & E2). exists (o, l). unfold sort_metadata. rewrite E. cbn [obind]. rewrite E2. reflexivity.
Qed.
Print Assumptions C53_terminates.
(** Three ranks with 4, 5 and 4 traces, largest first. *)
Definition demo_traces (r : nat) : list (Z * Z) :=
  match r with O => [(12, 0); (11, 1); (10, 2); (9, 3)] | 1%nat => [(8, 4); (7, 5); (6, 6); (5, 7); (4, 8)] | _ => [(3, 9); (2, 10); (1, 11); (0, 12)] end.
Definition fst_lt (a b : Z * Z) : bool := fst a <? fst b.
Lemma fst_total (l : list (Z * Z)) : NoDup (map fst l) -> strict_total (fun x => In x l) fst_lt.
Proof.
  intros N. unfold fst_lt. split; [intros; apply Z.ltb_irrefl|]. split; [intros x y z _ _ _; rewrite !Z.ltb_lt; lia|].
  intros x y X Y. rewrite !Z.ltb_ge. intros H1 H2. assert (E : fst x = fst y) by lia. clear H1 H2.
  induction l as [|a l IH]; [destruct X|]. cbn [map] in N. inversion N as [|? ? N1 N2]; subst. destruct X as [->|X], Y as [->|Y]; [reflexivity| | |apply IH; assumption].
  - exfalso. apply N1. rewrite E. apply in_map, Y.
  - exfalso. apply N1. rewrite <- E. apply in_map, X.
Qed.
Lemma nodupb (l : list Z) : (fix f (l : list Z) := match l with [] => true | x :: r => negb (existsb (Z.eqb x) r) && f r end) l = true -> NoDup l.
Proof.
  induction l as [|x l IH]; intros H; [constructor|]. apply andb_true_iff in H. destruct H as (H1 & H2). constructor; [|apply IH, H2].
  intros I. apply negb_true_iff in H1. apply diff_false_true. rewrite <- H1. apply existsb_exists. exists x. split; [exact I|apply Z.eqb_refl].
Qed.
Lemma told_nodup (l : list (Z * Z)) : NoDup (map snd l) -> told_apart snd l.
Proof.
  intros N x y X Y E. induction l as [|a l IH]; [destruct X|]. cbn [map] in N. inversion N as [|? ? N1 N2]; subst. destruct X as [->|X], Y as [->|Y]; [reflexivity| | |apply IH; assumption].
  - exfalso. apply N1. rewrite E. apply in_map, Y.
  - exfalso. apply N1. rewrite <- E. apply in_map, X.
Qed.
Example C52_C53_demo : std_sort isort /\ (forall r, (r < 3)%nat -> (4 <= length (demo_traces r))%nat) /\ strict_total (fun x => In x (all 3 demo_traces)) fst_lt /\
  NoDup (all 3 demo_traces) /\ told_apart snd (all 3 demo_traces) /\
  exists out final, sort_metadata 100 100 isort fst_lt snd (0, 0) 3 demo_traces = Some (out, final) /\ map fst (all 3 out) = zr 13 /\ all 3 final = rev (zr 13).
Proof.
  split; [apply isort_std|]. split; [intros [|[|[|]]] H; cbn; lia|]. split; [apply fst_total, nodupb; reflexivity|].
  split; [apply (NoDup_map_inv snd), nodupb; reflexivity|]. split; [apply told_nodup, nodupb; reflexivity|].
  assert (E : option_map (fun x => (map fst (all 3 (fst x)), all 3 (snd x))) (sort_metadata 100 100 isort fst_lt snd (0, 0) 3 demo_traces) = Some (zr 13, rev (zr 13))) by (vm_compute; reflexivity).
  destruct (sort_metadata _ _ _ _ _ _ _ _) as [(out, final)|]; [|discriminate E]. exists out, final. cbn [option_map fst snd] in E. split; [reflexivity|]. split; congruence.
Qed.

(** ---- C54 ---- *)
(** Two ranks with three traces each (accepted by Set::sort): nothing moves between them. *)
Theorem C54_three_traces_refuted : exists srt (prm : nat -> list (Z * Z)), std_sort srt /\ (forall r, (r < 2)%nat -> length (prm r) = 3%nat) /\
  strict_total (fun x => In x (all 2 prm)) fst_lt /\ NoDup (all 2 prm) /\ told_apart snd (all 2 prm) /\
  exists out final, sort_metadata 10 10 srt fst_lt snd (0, 0) 2 prm = Some (out, final) /\ ~ sorted fst_lt (all 2 out).
Proof.
  exists isort, (fun r => match r with O => [(5, 0); (4, 1); (3, 2)] | _ => [(2, 3); (1, 4); (0, 5)] end).
  split; [apply isort_std|]. split; [intros [|[|]] H; reflexivity || lia|]. split; [apply fst_total, nodupb; reflexivity|].
  split; [apply (NoDup_map_inv snd), nodupb; reflexivity|]. split; [apply told_nodup, nodupb; reflexivity|].
  set (prm := fun r : nat => _). assert (E : option_map (fun x => all 2 (fst x)) (sort_metadata 10 10 isort fst_lt snd (0, 0) 2 prm) = Some [(3, 2); (4, 1); (5, 0); (0, 5); (1, 4); (2, 3)]) by (vm_compute; reflexivity).
  destruct (sort_metadata _ _ _ _ _ _ _ _) as [(out, final)|]; [|discriminate E]. exists out, final. cbn [option_map fst snd] in E. split; [reflexivity|].
  assert (E' : all 2 out = [(3, 2); (4, 1); (5, 0); (0, 5); (1, 4); (2, 3)]) by congruence. rewrite E'. intros S. inversion S as [|? ? _ F]; subst. rewrite Forall_forall in F.
  specialize (F (0, 5) ltac:(cbn [In]; auto)). discriminate F.
Qed.
Print Assumptions C54_three_traces_refuted.
(** On one rank the size does not matter, and with four per rank C52 applies. *)
Theorem C54_one_rank_partial : forall A (srt : sorter) (comp : A -> A -> bool) (gtn : A -> Z) zero prm fuel fuel2 out final,
  std_sort srt -> strict_weak (fun x => In x (prm 0%nat)) comp ->
  sort_metadata fuel fuel2 srt comp gtn zero 1 prm = Some (out, final) -> Permutation (prm 0%nat) (out 0%nat) /\ sorted comp (out 0%nat).
Proof.
  intros A srt comp gtn zero prm fuel fuel2 out final S W H. unfold sort_metadata in H.
  unfold nn_sort at 1 in H. cbn [Nat.ltb Nat.leb obind] in H. destruct (sort_list _ _ _ _) as [l|]; [|discriminate]. cbn [obind] in H. injection H as <- <-.
  destruct (S A comp (prm 0%nat) W) as (P & O). cbn [edge2 Nat.eqb Nat.sub]. unfold edge2. cbn [Nat.eqb Nat.sub repeat]. rewrite app_nil_r, (Permutation_length P), firstn_all. auto.
Qed.
Print Assumptions C54_one_rank_partial.

(** ---- C55 ---- *)
(** One file of nt traces: the numbers given to the traces increase over the ranks. *)
Lemma strict_app (a b : list Z) : StronglySorted Z.lt a -> StronglySorted Z.lt b -> (forall x y, In x a -> In y b -> x < y) -> StronglySorted Z.lt (a ++ b).
Proof.
  induction a as [|x a IH]; intros A B H; [exact B|]. inversion A as [|? ? A1 A2]; subst. cbn [app]. constructor; [apply IH; [exact A1|exact B|intros; apply H; [right; assumption|assumption]]|].
  rewrite Forall_forall in *. intros y Y. apply in_app_or in Y. destruct Y as [Y|Y]; [apply A2, Y|apply H; [left; reflexivity|exact Y]].
Qed.
Lemma strict_seq n c : StronglySorted Z.lt (map (fun i => c + i) (zr n)).
Proof.
  unfold zr, zrange. rewrite map_map. generalize 0%nat. induction (Z.to_nat n) as [|k IH]; intros m; [constructor|]. cbn [seq map]. constructor; [apply IH|].
  rewrite Forall_forall. intros y Y. apply in_map_iff in Y. destruct Y as (i & <- & I). apply in_seq in I. lia.
Qed.
Lemma cache_one p nt r : in_u64 nt -> (r < p)%nat ->
  cache p [nt] r = map (fun i => (2 * off_of nt (Z.of_nat p) (Z.of_nat r) + i, off_of nt (Z.of_nat p) (Z.of_nat r) + i)) (zr (sz_of nt (Z.of_nat p) (Z.of_nat r))).
Proof.
  intros N H. unfold cache.
  assert (I : forall q, (q < p)%nat -> ilsts (Z.of_nat p) (Z.of_nat q) [nt] = [mkPiece (off_of nt (Z.of_nat p) (Z.of_nat q)) (sz_of nt (Z.of_nat p) (Z.of_nat q))]).
  { intros q Q. unfold ilsts, ilst. cbn [map]. rewrite block_decomposition_exact by (try assumption; lia). reflexivity. }
  rewrite (I r H). assert (S : forall k, (k <= r)%nat -> zsum (map (fun q => cache_lnt (Z.of_nat p) (Z.of_nat q) [nt]) (seq 0 k)) = off_of nt (Z.of_nat p) (Z.of_nat k)).
  { induction k as [|k IH]; intros K; [symmetry; apply off_0; unfold in_u64 in N; lia|]. rewrite seq_S, map_app, zsum_app, IH by lia. cbn [map]. unfold cache_lnt. rewrite (I (0 + k)%nat) by lia.
    cbn [map local_size]. replace (Z.of_nat (S k)) with (Z.of_nat k + 1) by lia. rewrite off_step by (unfold in_u64 in N; lia). unfold zsum. cbn [fold_right Nat.add]. lia. }
  rewrite (S r (Nat.le_refl r)). cbn [cache_numbers global_offset local_size length]. rewrite app_nil_r. apply map_ext. intros i. f_equal; lia.
Qed.
Theorem C55_single_file_numbers : forall p nt, in_u64 nt -> (0 < p)%nat ->
  StronglySorted Z.lt (map fst (all p (cache p [nt]))) /\ map snd (all p (cache p [nt])) = zr nt.
Proof.
  intros p nt N P. rewrite <- !all_map.
  assert (SZ : forall r, (r < p)%nat -> 0 <= sz_of nt (Z.of_nat p) (Z.of_nat r)).
  { intros r H. destruct (piece_bounds nt (Z.of_nat p) (Z.of_nat r) N ltac:(lia) ltac:(lia)) as (pc & E & _ & B & _). rewrite block_decomposition_exact in E by (try assumption; lia). injection E as <-. exact B. }
  assert (X : forall k, (k <= p)%nat -> StronglySorted Z.lt (all k (fun r => map fst (cache p [nt] r))) /\ (forall x, In x (all k (fun r => map fst (cache p [nt] r))) -> x < 2 * off_of nt (Z.of_nat p) (Z.of_nat k)) /\
     all k (fun r => map snd (cache p [nt] r)) = zr (off_of nt (Z.of_nat p) (Z.of_nat k))).
  { induction k as [|k IH]; intros K.
    - cbn. rewrite off_0 by (unfold in_u64 in N; lia). split; [constructor|]. split; [intros ? []|reflexivity].
    - destruct (IH ltac:(lia)) as (I1 & I2 & I3). rewrite !all_S. rewrite (cache_one p nt k N) by lia. rewrite !map_map. cbn [fst snd]. specialize (SZ k ltac:(lia)).
      replace (Z.of_nat (S k)) with (Z.of_nat k + 1) by lia. rewrite off_step by (unfold in_u64 in N; lia).
      assert (O : 0 <= off_of nt (Z.of_nat p) (Z.of_nat k)).
      { rewrite <- (off_0 nt (Z.of_nat p)) by (unfold in_u64 in N; lia). apply off_mono; unfold in_u64 in N; lia. }
      split; [|split].
      + apply strict_app; [exact I1|apply strict_seq|]. intros x y A B. apply I2 in A. apply in_map_iff in B. destruct B as (i & <- & B). apply in_zr in B. lia.
      + intros x A. apply in_app_or in A. destruct A as [A|A]; [apply I2 in A; lia|]. apply in_map_iff in A. destruct A as (i & <- & A). apply in_zr in A. lia.
      + rewrite I3, zr_app by lia. f_equal. }
  destruct (X p (Nat.le_refl p)) as (X1 & _ & X3). split; [exact X1|]. rewrite X3, off_p by (unfold in_u64 in N; lia). reflexivity.
Qed.
Print Assumptions C55_single_file_numbers.
(** When the numbers increase in input order, the j-th entry of the list is the
    place of the j-th input trace in the sorted order. *)
Theorem C55_final_places : forall A (srt : sorter) (comp : A -> A -> bool) (gtn : A -> Z) zero p prm fuel fuel2 out final,
  std_sort srt -> (0 < p)%nat -> (forall r, (r < p)%nat -> (4 <= length (prm r))%nat) ->
  strict_weak (fun x => In x (all p prm)) comp -> StronglySorted Z.lt (map gtn (all p prm)) ->
  sort_metadata fuel fuel2 srt comp gtn zero p prm = Some (out, final) ->
  (forall j x, nth_error (all p prm) j = Some x -> exists q, nth_error (all p final) j = Some (Z.of_nat q) /\ nth_error (all p out) q = Some x) /\
  Permutation (all p final) (zr (Z.of_nat (length (all p prm)))) /\ (forall r, (r < p)%nat -> length (final r) = length (prm r)).
Proof.
  intros A srt comp gtn zero p prm fuel fuel2 out final S P L W I H.
  assert (T : told_apart gtn (all p prm)).
  { clear -I. intros x y X Y E. induction (all p prm) as [|a l IH]; [destruct X|]. cbn [map] in I. inversion I as [|? ? I1 I2]; subst. rewrite Forall_forall in I2.
    destruct X as [->|X], Y as [->|Y]; [reflexivity| | |apply IH; assumption]; exfalso; [specialize (I2 (gtn y) (in_map _ _ _ Y))|specialize (I2 (gtn x) (in_map _ _ _ X))]; lia. }
  destruct (C52_sorted_permutation A srt comp gtn zero p prm fuel fuel2 out final S P L W T H) as (R1 & _ & R3).
  unfold sort_metadata in H. destruct (nn_sort _ _ _ _ _ _ _ _) as [o|] eqn:E; [|discriminate]. cbn [obind] in H. destruct (sort_list _ _ _ _) as [l|] eqn:E2; [|discriminate]. cbn [obind] in H. injection H as -> ->.
  assert (L4 : (1 < p -> forall r, (r < p)%nat -> (4 <= length (map gtn (out r)))%nat)%nat) by (intros _ r Hr; rewrite map_length, (R3 r Hr); apply L, Hr).
  split; [|split].
  - intros j x J. destruct (final_place fuel2 srt p (fun r => map gtn (out r)) final (map gtn (all p prm)) S P L4 E2) with (j := j) (v := gtn x) as (q & Q1 & Q2).
    + rewrite all_map. apply Permutation_map, R1.
    + exact I.
    + rewrite nth_error_map, J. reflexivity.
    + exists q. split; [exact Q1|]. rewrite all_map, nth_error_map in Q2. destruct (nth_error (all p out) q) as [y|] eqn:Y; [|discriminate]. cbn [option_map] in Q2.
      f_equal. apply T; [apply (Permutation_in _ (Permutation_sym R1)), (nth_error_In _ _ Y)|apply (nth_error_In _ _ J)|congruence].
  - destruct (sort_list_pairs fuel2 srt p _ _ S P L4 E2) as (ps & -> & _ & PP & _). rewrite <- PP, plist_all, all_map, map_length, (Permutation_length R1).
    unfold zr, zrange. rewrite Nat2Z.id. replace (length (all p out)) with (length (map gtn (all p out))) by apply map_length. generalize (map gtn (all p out)). generalize 0%nat. clear.
    intros n l. revert n. induction l as [|x l IH]; intros n; [reflexivity|]. cbn [length seq map List.combine snd]. constructor. apply IH.
  - intros r Hr. destruct (sort_list_pairs fuel2 srt p _ _ S P L4 E2) as (ps & _ & LL & _ & _). rewrite (LL r Hr), map_length. apply R3, Hr.
Qed.
Print Assumptions C55_final_places.
Example C55_demo : StronglySorted Z.lt (map snd (all 3 demo_traces)).
Proof. change (map snd (all 3 demo_traces)) with (map (fun i => 0 + i) (zr 13)). apply strict_seq. Qed.
(** Two files of 8 and 4 traces on two ranks: traces share numbers, and the list
    mixes up their places. *)
Theorem C55_two_files_refuted : exists srt (key : nat -> list Z), std_sort srt /\ (forall r, (r < 2)%nat -> length (key r) = length (cache 2 [8; 4] r) /\ (4 <= length (key r))%nat) /\
  NoDup (all 2 key) /\ ~ NoDup (map fst (all 2 (cache 2 [8; 4]))) /\
  let prm := fun r => List.combine (key r) (map fst (cache 2 [8; 4] r)) in
  exists out final, sort_metadata 50 50 srt fst_lt snd (0, 0) 2 prm = Some (out, final) /\
    exists j q x, nth_error (all 2 prm) j = Some x /\ nth_error (all 2 final) j = Some (Z.of_nat q) /\ nth_error (all 2 out) q <> Some x.
Proof.
  exists isort, (fun r => match r with O => [0; 1; 2; 3; 4; 5] | _ => [11; 10; 9; 8; 7; 6] end). split; [apply isort_std|].
  split; [intros [|[|]] H; [vm_compute; split; [reflexivity|lia]|vm_compute; split; [reflexivity|lia]|lia]|]. split; [apply nodupb; reflexivity|]. split.
  { assert (E : map fst (all 2 (cache 2 [8; 4])) = [0; 1; 2; 3; 4; 5] ++ 10 :: 11 :: 12 :: [13; 12; 13]) by (vm_compute; reflexivity). rewrite E. intros N. cbn [app] in N.
    do 8 (inversion N as [|? ? _ N']; subst; clear N; rename N' into N). inversion N as [|? ? N1 _]; subst. apply N1. cbn [In]. auto. }
  cbv zeta. set (prm := fun r : nat => List.combine _ _).
  assert (E : option_map (fun x => (nth_error (all 2 (snd x)) 8, nth_error (all 2 (fst x)) 7)) (sort_metadata 50 50 isort fst_lt snd (0, 0) 2 prm) = Some (Some 7, Some (7, 12))) by (vm_compute; reflexivity).
  destruct (sort_metadata _ _ _ _ _ _ _ _) as [(out, final)|]; [|discriminate E]. exists out, final. cbn [option_map fst snd] in E. split; [reflexivity|].
  exists 8%nat, 7%nat, (9, 12). split; [vm_compute; reflexivity|]. assert (E1 : nth_error (all 2 final) 8 = Some 7) by congruence. assert (E2 : nth_error (all 2 out) 7 = Some (7, 12)) by congruence.
  split; [exact E1|]. rewrite E2. intros Q. discriminate Q.
Qed.
Print Assumptions C55_two_files_refuted.

(** ---- C56 ---- *)
Definition transitive_on {A} (l : list A) (comp : A -> A -> bool) : Prop := forall x y z, In x l -> In y l -> In z l -> comp x y = true -> comp y z = true -> comp x z = true.
Theorem C56_local_check_partial : forall A (comp : A -> A -> bool) l, transitive_on l comp -> checkOrder comp l = true <-> StronglySorted (fun a b => comp a b = true) l.
Proof. intros A comp l. apply checkOrder_iff. Qed.
Print Assumptions C56_local_check_partial.
(** Never a false alarm: if the whole file is sorted, every rank says so. *)
Theorem C56_no_false_alarm_partial : forall A (comp : A -> A -> bool) p (d : nat -> list A), transitive_on (all p d) comp ->
  StronglySorted (fun a b => comp a b = true) (all p d) -> forall r, (r < p)%nat -> checkOrder comp (d r) = true.
Proof.
  intros A comp p d T S r H.
  assert (IN : forall x, In x (d r) -> In x (all p d)) by (intros; apply all_in; eauto).
  apply checkOrder_iff; [intros x y z X Y Z; apply T; apply IN; assumption|].
  assert (SA : forall (Q : A -> A -> Prop) (a b : list A), StronglySorted Q (a ++ b) -> StronglySorted Q b) by (intros Q; induction a as [|x a IH]; intros b SS; [exact SS|inversion SS; subst; apply IH; assumption]).
  assert (SB : forall (Q : A -> A -> Prop) (a b : list A), StronglySorted Q (a ++ b) -> StronglySorted Q a).
  { intros Q. induction a as [|x a IH]; intros b SS; [constructor|]. inversion SS as [|? ? S1 F]; subst. constructor; [apply (IH b), S1|]. rewrite Forall_forall in *. intros y Y. apply F, in_or_app. auto. }
  unfold all in S. replace p with (r + (1 + (p - r - 1)))%nat in S by lia. rewrite seq_app, flat_map_app in S. apply SA in S. rewrite seq_app, flat_map_app in S. apply SB in S.
  cbn [seq flat_map Nat.add] in S. rewrite app_nil_r in S. exact S.
Qed.
Print Assumptions C56_no_false_alarm_partial.
Example C56_demo : transitive_on [1; 2; 5] Z.ltb /\ checkOrder Z.ltb [1; 2; 5] = true /\ checkOrder Z.ltb [1; 5; 2] = false.
Proof. split; [intros x y z _ _ _; rewrite !Z.ltb_lt; lia|split; reflexivity]. Qed.
(** Disorder between ranks is not seen. *)
Theorem C56_rank_border_refuted : exists (d : nat -> list Z), (forall r, (r < 2)%nat -> checkOrder Z.ltb (d r) = true) /\ ~ sorted Z.ltb (all 2 d).
Proof.
  exists (fun r => match r with O => [1; 2] | _ => [0; 3] end). split; [intros [|[|]] H; reflexivity|]. intros S. inversion S as [|? ? _ F]; subst. rewrite Forall_forall in F.
  specialize (F 0 ltac:(cbn [In]; auto)). discriminate F.
Qed.
Print Assumptions C56_rank_border_refuted.
