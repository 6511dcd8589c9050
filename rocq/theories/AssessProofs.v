(** Lemmas about matching names and opening a file many times. *)
From Verif Require Import Base DataIOModel DoubleModel FileModel AssessModel AssessSpec.
Import ListNotations.
Open Scope Z_scope.

Inductive star (L : list Z -> Prop) : list Z -> Prop := star_nil : star L [] | star_app a b : L a -> star L b -> star L (a ++ b).
Fixpoint lang (r : re) (s : list Z) : Prop :=
  match r with
  | Nul => False | Eps => s = [] | Any => exists c, s = [c] | Chr d => exists c, s = [c] /\ lower c = lower d
  | Cat a b => exists u v, s = u ++ v /\ lang a u /\ lang b v | Alt a b => lang a s \/ lang b s | Star a => star (lang a) s
  end.
Lemma nullable_lang r : nullable r = true <-> lang r [].
Proof.
  induction r as [| | |d|a IHa b IHb|a IHa b IHb|a IHa]; cbn [nullable lang].
  - split; [discriminate|contradiction].
  - split; reflexivity.
  - split; [discriminate|intros (c & E); discriminate].
  - split; [discriminate|intros (c & E & _); discriminate].
  - rewrite andb_true_iff, IHa, IHb. split; [intros (A & B); exists [], []; auto|]. intros (u & v & E & A & B). destruct u, v; try discriminate. auto.
  - rewrite orb_true_iff, IHa, IHb. reflexivity.
  - split; [constructor|reflexivity].
Qed.
Lemma star_cons L c s : star L (c :: s) -> exists u v, s = u ++ v /\ L (c :: u) /\ star L v.
Proof.
  intros H. remember (c :: s) as t eqn:E. revert c s E. induction H as [|a b A B IH]; intros c s E; [discriminate|]. destruct a as [|x a]; [apply IH; exact E|]. cbn [app] in E.
  assert (x = c) by congruence. assert (a ++ b = s) by congruence. subst. exists a, b. auto.
Qed.
Lemma deriv_lang c : forall r s, lang (deriv c r) s <-> lang r (c :: s).
Proof.
  induction r as [| | |d|a IHa b IHb|a IHa b IHb|a IHa]; intros s; cbn [deriv lang].
  - reflexivity.
  - split; [contradiction|discriminate].
  - split; [intros ->; exists c; reflexivity|intros (x & E); congruence].
  - destruct (Z.eqb_spec (lower c) (lower d)) as [E|E]; cbn [lang].
    + split; [intros ->; exists c; auto|intros (x & Q & _); congruence].
    + split; [contradiction|intros (x & Q & R); assert (x = c) by congruence; subst x; contradiction].
  - assert (K : (exists u v, s = u ++ v /\ lang (deriv c a) u /\ lang b v) \/ (lang a [] /\ lang (deriv c b) s) <-> exists u v, c :: s = u ++ v /\ lang a u /\ lang b v).
    { split.
      - intros [(u & v & -> & A & B)|(A & B)]; [exists (c :: u), v; split; [reflexivity|]; split; [apply IHa, A|exact B]|exists [], (c :: s); split; [reflexivity|]; split; [exact A|apply IHb, B]].
      - intros (u & v & E & A & B). destruct u as [|x u]; [right; cbn [app] in E; subst v; split; [exact A|apply IHb, B]|]. left. cbn [app] in E. assert (x = c) by congruence. assert (s = u ++ v) by congruence. subst. exists u, v. split; [reflexivity|]. split; [apply IHa, A|exact B]. }
    pose proof (nullable_lang a) as N. destruct (nullable a); cbn [lang].
    + rewrite <- K. split; intros [Q|Q]; auto; [right; split; [apply N; reflexivity|exact Q]|right; apply Q].
    + rewrite <- K. split; [auto|]. intros [Q|(Q & _)]; [exact Q|]. apply N in Q. discriminate.
  - rewrite IHa, IHb. reflexivity.
  - split.
    + intros (u & v & -> & A & B). apply (star_app (lang a) (c :: u) v); [apply IHa, A|exact B].
    + intros H. apply star_cons in H. destruct H as (u & v & -> & A & B). exists u, v. split; [reflexivity|]. split; [apply IHa, A|exact B].
Qed.
Lemma match_lang r s : regex_match r s = true <-> lang r s.
Proof.
  unfold regex_match. revert r. induction s as [|c s IH]; intros r; cbn [fold_left]; [apply nullable_lang|]. rewrite IH. apply deriv_lang.
Qed.
Lemma any_star s : star (lang Any) s.
Proof. induction s as [|c s IH]; [constructor|]. apply (star_app (lang Any) [c] s); [exists c; reflexivity|exact IH]. Qed.
Lemma lower_letter c d : 97 <= d <= 122 -> (lower c = lower d <-> letter d c).
Proof.
  intros D. unfold lower, letter. replace ((65 <=? d) && (d <=? 90)) with false by lia. destruct ((65 <=? c) && (c <=? 90)) eqn:E; lia.
Qed.
Lemma segy_lang s : regex_match segy_re s = true <-> segy_name s.
Proof.
  rewrite match_lang. unfold segy_re, segy_name. cbn [lang]. split.
  - intros (pre & t & -> & _ & a' & t1 & -> & (a & -> & A) & e' & t2 & -> & E & g' & y' & -> & (g & -> & G) & (y & -> & Y)). apply lower_letter in A; [|lia]. apply lower_letter in G; [|lia]. apply lower_letter in Y; [|lia].
    exists pre, a, g, y. split; [exact A|]. split; [exact G|]. split; [exact Y|]. destruct E as [->|(e & -> & E)]; [left; reflexivity|right; exists e; split; [apply lower_letter; [lia|exact E]|reflexivity]].
  - intros (pre & a & g & y & A & G & Y & H). apply lower_letter in A; [|lia]. apply lower_letter in G; [|lia]. apply lower_letter in Y; [|lia].
    destruct H as [->|(e & E & ->)].
    + exists pre, [a; g; y]. split; [reflexivity|]. split; [apply any_star|]. exists [a], [g; y]. split; [reflexivity|]. split; [exists a; auto|]. exists [], [g; y]. split; [reflexivity|]. split; [left; reflexivity|]. exists [g], [y]. split; [reflexivity|]. split; [exists g; auto|exists y; auto].
    + apply lower_letter in E; [|lia]. exists pre, [a; e; g; y]. split; [reflexivity|]. split; [apply any_star|]. exists [a], [e; g; y]. split; [reflexivity|]. split; [exists a; auto|]. exists [e], [g; y]. split; [reflexivity|]. split; [right; exists e; auto|]. exists [g], [y]. split; [reflexivity|]. split; [exists g; auto|exists y; auto].
Qed.
Lemma filter_picks {A} (b : A -> bool) (P : A -> Prop) : (forall x, b x = true <-> P x) -> forall l, picks P l (filter b l).
Proof.
  intros H. induction l as [|x l IH]; [constructor|]. cbn [filter]. pose proof (H x) as Q. destruct (b x); [constructor; [apply Q; reflexivity|exact IH]|]. constructor; [intros X; apply Q in X; discriminate|exact IH].
Qed.
Lemma picks_in {A} (P : A -> Prop) l m x : picks P l m -> In x m -> In x l /\ P x.
Proof. intros H. induction H as [|y l m Y H IH|y l m Y H IH]; cbn [In]; [contradiction|intros [<-|X]; [auto|destruct (IH X); auto]|intros X; destruct (IH X); auto]. Qed.
Lemma omap_forall2 {A B} (h : A -> option B) (Q : A -> B -> Prop) : forall l, (forall x, In x l -> exists y, h x = Some y /\ Q x y) -> exists m, omap h l = Some m /\ Forall2 Q l m.
Proof.
  induction l as [|a l IH]; intros H; [exists []; split; [reflexivity|constructor]|]. destruct (H a (or_introl eq_refl)) as (y & E & QY). destruct IH as (m & EM & F); [intros x X; apply H; right; exact X|].
  exists (y :: m). cbn [omap]. rewrite E. cbn [obind]. rewrite EM. split; [reflexivity|constructor; assumption].
Qed.
(** ---- many handles ---- *)
Lemma same_prefix_refl s : same_prefix s s = true. Proof. induction s as [|c s IH]; [reflexivity|]. cbn [same_prefix]. rewrite Z.eqb_refl, IH. reflexivity. Qed.
Lemma omap_const {A} (v : option A) : forall (l : list nat), l <> [] -> omap (fun _ => v) l = match v with Some x => Some (map (fun _ => x) l) | None => None end.
Proof.
  induction l as [|a l IH]; intros N; [congruence|]. cbn [omap]. destruct v as [x|]; [|reflexivity]. cbn [obind]. destruct l as [|b l]; [reflexivity|]. rewrite IH by discriminate. reflexivity.
Qed.
Lemma omap_nth_error {A} (h : nat -> option A) : forall n s, (forall k, (s <= k < s + n)%nat -> h k <> None) -> exists m, omap h (seq s n) = Some m /\ forall k, (k < n)%nat -> nth_error m k = h (s + k)%nat.
Proof.
  induction n as [|n IH]; intros s H; [exists []; split; [reflexivity|intros k K; lia]|]. cbn [seq omap]. destruct (h s) as [y|] eqn:E; [|exfalso; apply (H s); [lia|exact E]]. destruct (IH (S s)) as (m & EM & Q); [intros k K; apply H; lia|].
  exists (y :: m). cbn [obind]. rewrite EM. split; [reflexivity|]. intros [|k] K; [rewrite Nat.add_0_r, E; reflexivity|]. cbn [nth_error]. rewrite Q by lia. f_equal. lia.
Qed.
Lemma round_form fnum opens first i : (i < fnum)%nat -> (forall j, (j < fnum)%nat -> opens j <> None) -> round_ok fnum opens first i = option_map (agrees first) (opens i).
Proof.
  intros I H. unfold round_ok. destruct (omap_nth_error opens fnum 0 ltac:(intros k K; apply H; lia)) as (m & E & Q). rewrite E. cbn [obind]. rewrite omap_const by (destruct fnum; [lia|discriminate]). rewrite (Q i I). cbn [Nat.add].
  destruct (opens i) as [h|]; [|reflexivity]. cbn [obind option_map]. f_equal. destruct fnum as [|n]; [lia|]. cbn [seq map forallb]. destruct (agrees first h) eqn:A; [|reflexivity]. cbn [andb]. induction (seq 1 n) as [|x l IH]; [reflexivity|]. cbn [map forallb]. rewrite A, IH. reflexivity.
Qed.
Lemma rounds_form fnum opens first : forall is, (forall i, In i is -> (i < fnum)%nat) -> (forall i j, In i is -> (j < fnum)%nat -> opens i j <> None) ->
  rounds_ok fnum opens first is = Some (forallb (fun i => match opens i i with Some h => agrees first h | None => false end) is).
Proof.
  induction is as [|i r IH]; intros I H; [reflexivity|]. cbn [rounds_ok forallb]. rewrite round_form by (intros; first [apply I; left; reflexivity|apply H; [left; reflexivity|assumption]]).
  destruct (opens i i) as [h|] eqn:E; [|exfalso; apply (H i i (or_introl eq_refl) (I i (or_introl eq_refl)) E)]. cbn [option_map obind]. destruct (agrees first h); [|reflexivity]. cbn [andb]. apply IH; [intros x X; apply I; right; exact X|intros x j X; apply H; right; exact X].
Qed.
