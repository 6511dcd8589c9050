From Coq Require Import Reals Lra Sorted Permutation.
From Flocq Require Import Core IEEE754.BinarySingleNaN.
From Verif Require Import Base DoubleModel ScalarProofs SortSpec SortModel SortProofs CompProofs MinMaxModel.
Open Scope Z_scope.

Lemma nth_error_Some_length {A} (l : list A) i x : nth_error l i = Some x -> (i < length l)%nat.
Proof. intros H. apply nth_error_Some. congruence. Qed.
Lemma keys_weak {A} (P : A -> Prop) (lt : A -> A -> bool) (keys : A -> list R) :
  (forall a b, P a -> P b -> lt a b = true <-> lex (keys a) (keys b)) -> (forall a b, P a -> P b -> length (keys a) = length (keys b)) -> strict_weak P lt.
Proof.
  intros K L. assert (F : forall a b, P a -> P b -> lt a b = false <-> ~ lex (keys a) (keys b)).
  { intros a b A1 B1. rewrite <- (K a b A1 B1). destruct (lt a b); split; congruence. }
  split; [|split].
  - intros x X. apply F; try assumption. apply lex_irrefl.
  - intros x y z X Y Z H1 H2. apply K in H1, H2; try assumption. apply K; try assumption. eapply lex_trans; eassumption.
  - intros x y z X Y Z A1 A2 B1 B2. apply F in A1, A2, B1, B2; try assumption. apply F; try assumption.
    rewrite (lex_connex (keys x) (keys y)) by auto. exact B1.
Qed.
Definition num2 (t : trc) : Prop := num (fst t) /\ num (snd t).
Lemma less12_spec a b : num2 a -> num2 b -> less12 a b = true <-> lex [ext (fst a); ext (snd a)] [ext (fst b); ext (snd b)].
Proof.
  intros (A1 & A2) (B1 & B2). unfold less12. cbn [lex].
  pose proof (dltb_spec _ _ A1 B1) as E1. pose proof (deqb_spec _ _ A1 B1) as E2. pose proof (dltb_spec _ _ A2 B2) as E3.
  destruct (dltb (fst a) (fst b)); [split; [intros _; left; apply E1; reflexivity|reflexivity]|].
  destruct (deqb (fst a) (fst b)); cbn [andb].
  - destruct (dltb (snd a) (snd b)); (split; [intros H|intros H]); try discriminate; try reflexivity.
    + right. split; [apply E2; reflexivity|left; apply E3; reflexivity].
    + destruct H as [H|(_ & [H|(_ & [])])]; [apply E1 in H; discriminate|apply E3 in H; discriminate].
  - split; [discriminate|]. intros [H|(H & _)]; [apply E1 in H; discriminate|apply E2 in H; discriminate].
Qed.
Lemma less12_weak : strict_weak num2 less12.
Proof. apply (keys_weak num2 less12 (fun t => [ext (fst t); ext (snd t)])); [apply less12_spec|reflexivity]. Qed.
Lemma dltb_weak : strict_weak num dltb.
Proof.
  apply (keys_weak num dltb (fun x => [ext x])); [|reflexivity]. intros a b A B. rewrite (dltb_spec a b A B). cbn [lex]. split; [auto|]. intros [H|(_ & [])]; exact H.
Qed.
Lemma dltb_le x y : num x -> num y -> dltb y x = false -> (ext x <= ext y)%R.
Proof. intros X Y H. destruct (Rle_or_lt (ext x) (ext y)) as [L|L]; [exact L|]. apply (dltb_spec y x Y X) in L. congruence. Qed.

Section Scan.
  Context {A : Type} (P : A -> Prop) (lt : A -> A -> bool) (W : strict_weak P lt).
  Let asym x y : P x -> P y -> lt x y = true -> lt y x = false.
  Proof. intros X Y H. destruct W as (I & T & _). destruct (lt y x) eqn:E; [|reflexivity]. pose proof (T x y x X Y X H E) as C. rewrite (I x X) in C. discriminate. Qed.
  Lemma scan_min_spec : forall l best bi i, P best -> Forall P l -> exists k b, scan_min lt best bi i l = (k, b) /\
    (k = bi /\ b = best \/ exists j, k = (i + j)%nat /\ nth_error l j = Some b /\ lt b best = true /\ (forall j' y, (j' < j)%nat -> nth_error l j' = Some y -> lt b y = true)) /\
    P b /\ lt best b = false /\ (forall x, In x l -> lt x b = false).
  Proof using W asym.
    induction l as [|x l IH]; intros best bi i B F.
    - exists bi, best. cbn. split; [reflexivity|]. split; [auto|]. split; [exact B|]. split; [apply W, B|intros ? []].
    - inversion F as [|? ? X F']; subst. cbn [scan_min]. destruct (lt x best) eqn:E.
      + destruct (IH x i (S i) X F') as (k & b & S & O & PB & L1 & L2). exists k, b. split; [exact S|]. split; [right; destruct O as [(-> & ->)|(j & -> & N & M1 & M2)]|].
        * exists 0%nat. split; [lia|]. split; [reflexivity|]. split; [exact E|]. intros j' y J. lia.
        * exists (Datatypes.S j). split; [lia|]. split; [exact N|]. split; [destruct W as (_ & T & _); apply (T b x best); auto|]. intros [|j'] y J Y; [cbn in Y; injection Y as <-; exact M1|]. apply (M2 j' y); [lia|exact Y].
        * split; [exact PB|]. split; [|intros y [<-|Y]; auto]. apply (SortProofs.le_trans P lt b x best); auto.
      + destruct (IH best bi (S i) B F') as (k & b & S & O & PB & L1 & L2). exists k, b. split; [exact S|]. split; [destruct O as [O|(j & -> & N & M1 & M2)]; [left; exact O|right]|].
        * exists (Datatypes.S j). split; [lia|]. split; [exact N|]. split; [exact M1|]. intros [|j'] y J Y; [cbn in Y; injection Y as <-|apply (M2 j' y); [lia|exact Y]].
          destruct (lt b x) eqn:C; [reflexivity|]. pose proof (SortProofs.le_trans P lt best x b W B X PB E C) as C2. congruence.
        * split; [exact PB|]. split; [exact L1|]. intros y [<-|Y]; [|auto]. apply (SortProofs.le_trans P lt b best x); auto.
  Qed.
  Lemma scan_max_spec : forall l best bi i, P best -> Forall P l -> exists k b, scan_max lt best bi i l = (k, b) /\
    (k = bi /\ b = best /\ (forall x, In x l -> lt x best = true) \/ exists j, k = (i + j)%nat /\ nth_error l j = Some b /\ (forall j' y, (j < j')%nat -> nth_error l j' = Some y -> lt y b = true)) /\
    P b /\ lt b best = false /\ (forall x, In x l -> lt b x = false).
  Proof using W asym.
    induction l as [|x l IH]; intros best bi i B F.
    - exists bi, best. cbn. split; [reflexivity|]. split; [left; split; [reflexivity|]; split; [reflexivity|intros ? []]|]. split; [exact B|]. split; [apply W, B|intros ? []].
    - inversion F as [|? ? X F']; subst. cbn [scan_max]. destruct (lt x best) eqn:E.
      + destruct (IH best bi (S i) B F') as (k & b & S & O & PB & L1 & L2). exists k, b. split; [exact S|]. split; [destruct O as [(O1 & O2 & O3)|(j & -> & N & M)]; [left|right]|].
        * split; [exact O1|]. split; [exact O2|]. intros y [<-|Y]; auto.
        * exists (Datatypes.S j). split; [lia|]. split; [exact N|]. intros [|j'] y J Y; [lia|]. apply (M j' y); [lia|exact Y].
        * split; [exact PB|]. split; [exact L1|]. intros y [<-|Y]; [|auto]. apply (SortProofs.le_trans P lt x best b); auto.
      + destruct (IH x i (S i) X F') as (k & b & S & O & PB & L1 & L2). exists k, b. split; [exact S|]. split; [right; destruct O as [(-> & -> & O3)|(j & -> & N & M)]|].
        * exists 0%nat. split; [lia|]. split; [reflexivity|]. intros [|j'] y J Y; [lia|]. apply O3. eapply nth_error_In with (n := j'). exact Y.
        * exists (Datatypes.S j). split; [lia|]. split; [exact N|]. intros [|j'] y J Y; [lia|]. apply (M j' y); [lia|exact Y].
        * split; [exact PB|]. split; [apply (SortProofs.le_trans P lt best x b); auto|]. intros y [<-|Y]; auto.
  Qed.
  (** The first smallest and the last largest element. *)
  Lemma minmax_element_spec l : l <> [] -> Forall P l -> exists i a j b, minmax_element lt l = Some ((i, a), (j, b)) /\
    nth_error l i = Some a /\ nth_error l j = Some b /\ (forall x, In x l -> lt x a = false) /\ (forall x, In x l -> lt b x = false) /\
    (forall k y, (k < i)%nat -> nth_error l k = Some y -> lt a y = true) /\ (forall k y, (j < k)%nat -> nth_error l k = Some y -> lt y b = true).
  Proof using W asym.
    destruct l as [|x l]; [congruence|]. intros _ F. inversion F as [|? ? X F']; subst.
    destruct (scan_min_spec l x 0%nat 1%nat X F') as (i & a & S1 & O1 & PA & A1 & A2). destruct (scan_max_spec l x 0%nat 1%nat X F') as (j & b & S2 & O2 & PB & B1 & B2).
    exists i, a, j, b. cbn [minmax_element]. rewrite S1, S2. split; [reflexivity|].
    split; [destruct O1 as [(-> & ->)|(k & -> & N & _)]; [reflexivity|exact N]|]. split; [destruct O2 as [(-> & -> & _)|(k & -> & N & _)]; [reflexivity|exact N]|].
    split; [intros y [<-|Y]; auto|]. split; [intros y [<-|Y]; auto|]. split.
    - intros k y K Y. destruct O1 as [(-> & _)|(m & -> & _ & M1 & M2)]; [lia|]. destruct k as [|k]; [cbn in Y; injection Y as <-; exact M1|]. apply (M2 k y); [lia|exact Y].
    - intros k y K Y. destruct O2 as [(-> & -> & M)|(m & -> & _ & M)]; (destruct k as [|k]; [lia|]); [apply M; eapply nth_error_In with (n := k); exact Y|]. apply (M k y); [lia|exact Y].
  Qed.
End Scan.

(** The erased lists are those of the ranks with traces. *)
Lemma erase_at {A} (l : list A) x r : erase (length l) (l ++ x :: r) = l ++ r.
Proof. unfold erase. rewrite firstn_app, firstn_all, Nat.sub_diag. cbn [firstn]. rewrite app_nil_r. f_equal. replace (S (length l)) with (length l + 1)%nat by lia. rewrite skipn_app, skipn_all2 by lia. replace (length l + 1 - length l)%nat with 1%nat by lia. reflexivity. Qed.
Definition used (sz : nat -> nat) (p : nat) : list nat := filter (fun r => negb (Nat.eqb (sz r) 0)) (seq 0 p).
Lemma flat_map_two {A} (f : nat -> list A) (l : list nat) : (forall r, length (f r) = 2%nat) -> length (flat_map f l) = (2 * length l)%nat.
Proof. intros F. induction l as [|a l IH]; [reflexivity|]. cbn [flat_map length]. rewrite app_length, F, IH. lia. Qed.
Lemma drop_empty_spec {A} sz (f : nat -> list A) : (forall r, length (f r) = 2%nat) -> forall p rest,
  drop_empty sz p (flat_map f (seq 0 p) ++ rest) = flat_map f (used sz p) ++ rest.
Proof.
  intros F. unfold used. induction p as [|p IH]; intros rest; [reflexivity|]. rewrite seq_S, flat_map_app, filter_app, flat_map_app, <- app_assoc. cbn [Nat.add flat_map filter drop_empty]. rewrite app_nil_r.
  destruct (sz p =? 0)%nat eqn:E; cbn [negb].
  - pose proof (F p) as L. destruct (f p) as [|a [|b [|]]]; try discriminate. set (m := flat_map f (seq 0 p)). assert (LM : length m = (2 * p)%nat) by (unfold m; rewrite flat_map_two, seq_length by exact F; reflexivity).
    replace (erase (2 * p + 1) (m ++ [a; b] ++ rest)) with (m ++ [a] ++ rest).
    + rewrite <- LM. cbn [app]. rewrite erase_at. cbn [flat_map]. unfold m. rewrite IH. rewrite app_nil_r. reflexivity.
    + replace (m ++ [a; b] ++ rest) with ((m ++ [a]) ++ b :: rest) by (rewrite <- app_assoc; reflexivity). replace (2 * p + 1)%nat with (length (m ++ [a])) by (rewrite app_length, LM; reflexivity). rewrite erase_at, <- app_assoc. reflexivity.
  - rewrite IH. cbn [flat_map]. rewrite app_nil_r, <- app_assoc. reflexivity.
Qed.
Lemma flat_map_nth {A} (f : nat -> list A) l i x : (forall r, length (f r) = 2%nat) -> nth_error (flat_map f l) i = Some x ->
  exists n r, nth_error l n = Some r /\ (exists e, (e < 2)%nat /\ i = (2 * n + e)%nat /\ nth_error (f r) e = Some x).
Proof.
  intros F. revert i. induction l as [|r l IH]; intros i H; [destruct i; discriminate|]. cbn [flat_map] in H. destruct (Nat.lt_ge_cases i 2) as [C|C].
  - rewrite nth_error_app1 in H by (rewrite F; exact C). exists 0%nat, r. split; [reflexivity|]. exists i. split; [exact C|]. split; [lia|exact H].
  - rewrite nth_error_app2 in H by (rewrite F; exact C). rewrite F in H. destruct (IH _ H) as (n & q & N & e & E1 & E2 & E3). exists (S n), q. split; [exact N|]. exists e. split; [exact E1|]. split; [lia|exact E3].
Qed.
Lemma flat_map_nth_in {A} (f : nat -> list A) l n r e x d : (forall r, length (f r) = 2%nat) -> nth_error l n = Some r -> (e < 2)%nat -> nth_error (f r) e = Some x -> nth (2 * n + e) (flat_map f l) d = x.
Proof.
  intros F. revert n. induction l as [|q l IH]; intros n N E X; [destruct n; discriminate|]. cbn [flat_map]. destruct n as [|n].
  - cbn in N. injection N as ->. rewrite app_nth1 by (rewrite F; lia). cbn [Nat.mul Nat.add]. erewrite nth_error_nth; [reflexivity|exact X].
  - rewrite app_nth2 by (rewrite F; lia). rewrite F. replace (2 * S n + e - 2)%nat with (2 * n + e)%nat by lia. apply IH; assumption.
Qed.

Section Coord.
  Variables (junk : trc) (p : nat) (off : nat -> Z) (dat : nat -> list trc).
  Hypothesis NUM : forall r t, (r < p)%nat -> In t (dat r) -> num2 t.
  Let loc r := local_minmax junk (off r) (dat r).
  (** What rank r contributes when it has traces. *)
  Lemma local_spec r : (r < p)%nat -> dat r <> [] -> exists i a j b,
    loc r = ([fst a; fst b], [u64 (off r + Z.of_nat i); u64 (off r + Z.of_nat j)]) /\ nth_error (dat r) i = Some a /\ nth_error (dat r) j = Some b /\
    (forall t, In t (dat r) -> less12 t a = false) /\ (forall t, In t (dat r) -> less12 b t = false).
  Proof.
    intros R N. destruct (minmax_element_spec num2 less12 less12_weak (dat r) N) as (i & a & j & b & E & N1 & N2 & L1 & L2 & _ & _); [apply Forall_forall; intros t T; apply (NUM r t R T)|].
    exists i, a, j, b. unfold loc, local_minmax. rewrite E. auto.
  Qed.
  Lemma loc_two r : length (fst (loc r)) = 2%nat /\ length (snd (loc r)) = 2%nat.
  Proof. unfold loc, local_minmax. destruct (minmax_element less12 (dat r)) as [((i, a), (j, b))|]; split; reflexivity. Qed.
  Lemma in_used r : In r (used (fun r => length (dat r)) p) <-> (r < p)%nat /\ dat r <> [].
  Proof. unfold used. rewrite filter_In, in_seq. destruct (dat r); cbn; split; intros (H1 & H2); (split; [lia|congruence]). Qed.
  Theorem coord_spec : (exists r, (r < p)%nat /\ dat r <> []) ->
    exists r1 i1 a r2 i2 b, getCoordMinMax junk p off dat = ((fst a, u64 (off r1 + Z.of_nat i1)), (fst b, u64 (off r2 + Z.of_nat i2))) /\
      (r1 < p)%nat /\ nth_error (dat r1) i1 = Some a /\ (forall t, In t (dat r1) -> less12 t a = false) /\ (forall r t, (r < p)%nat -> In t (dat r) -> dltb (fst t) (fst a) = false) /\
      (r2 < p)%nat /\ nth_error (dat r2) i2 = Some b /\ (forall t, In t (dat r2) -> less12 b t = false) /\ (forall r t, (r < p)%nat -> In t (dat r) -> dltb (fst b) (fst t) = false).
  Proof using NUM.
    intros (r0 & R0 & N0). unfold getCoordMinMax. cbv zeta.
    set (sz := fun r => length (dat r)). set (f := fun r => fst (loc r)). set (g := fun r => snd (loc r)).
    assert (F2 : forall r, length (f r) = 2%nat) by (intros r; apply loc_two). assert (G2 : forall r, length (g r) = 2%nat) by (intros r; apply loc_two).
    pose proof (drop_empty_spec sz f F2 p []) as DF. pose proof (drop_empty_spec sz g G2 p []) as DG. rewrite !app_nil_r in DF, DG. change (fun r => fst (local_minmax junk (off r) (dat r))) with f. change (fun r => snd (local_minmax junk (off r) (dat r))) with g. change (fun r => length (dat r)) with sz. rewrite DF, DG.
    set (u := used sz p). assert (U : forall r, In r u <-> (r < p)%nat /\ dat r <> []) by (intros r; apply in_used).
    assert (LEN : (2 <= length (flat_map f u))%nat). { rewrite flat_map_two by exact F2. assert (In r0 u) by (apply U; auto). destruct u; [contradiction|]. cbn [length]. lia. }
    assert (FP : Forall num (flat_map f u)).
    { apply Forall_forall. intros x X. apply in_flat_map in X. destruct X as (r & R & X). apply U in R. destruct R as (R & N). destruct (local_spec r R N) as (i & a & j & b & E & N1 & N2 & _). unfold f in X. rewrite E in X. cbn [fst] in X.
      destruct X as [<-|[<-|[]]]; [apply (NUM r a R), (nth_error_In _ _ N1)|apply (NUM r b R), (nth_error_In _ _ N2)]. }
    destruct (minmax_element_spec num dltb dltb_weak (flat_map f u)) as (i & a & j & b & E & N1 & N2 & L1 & L2 & FI & LA); [intros C; rewrite C in LEN; cbn in LEN; lia|exact FP|].
    rewrite E. destruct (Nat.eqb_spec i j) as [C|_]; [exfalso|].
    { subst j. rewrite N1 in N2. injection N2 as <-. assert (K : exists k y, k <> i /\ nth_error (flat_map f u) k = Some y).
      { destruct (flat_map f u) as [|x0 [|x1 l]]; cbn in LEN; try lia. destruct i as [|i]; [exists 1%nat, x1|exists 0%nat, x0]; split; try lia; reflexivity. }
      destruct K as (k & y & K & Y). pose proof (nth_error_In _ _ Y) as IY. destruct (Nat.lt_ge_cases k i) as [C|C]; [specialize (FI k y C Y); specialize (L2 y IY); congruence|specialize (LA k y ltac:(lia) Y); rewrite (L1 y IY) in LA; discriminate]. }
    pose proof dltb_weak as DW. pose proof (proj1 (Forall_forall _ _) FP) as FP'.
    destruct (flat_map_nth f u i a F2 N1) as (n1 & r1 & U1 & e1 & E11 & E12 & E13). destruct (flat_map_nth f u j b F2 N2) as (n2 & r2 & U2 & e2 & E21 & E22 & E23).
    assert (I1 : In r1 u) by (eapply nth_error_In; exact U1). assert (I2 : In r2 u) by (eapply nth_error_In; exact U2). apply U in I1, I2. destruct I1 as (R1 & D1), I2 as (R2 & D2).
    destruct (local_spec r1 R1 D1) as (i1 & a1 & j1 & b1 & X1 & NA1 & NB1 & MA1 & MB1). destruct (local_spec r2 R2 D2) as (i2 & a2 & j2 & b2 & X2 & NA2 & NB2 & MA2 & MB2).
    (* every trace of a used rank lies between the two values it contributes *)
    assert (BND : forall r t, (r < p)%nat -> In t (dat r) -> dltb (fst t) a = false /\ dltb b (fst t) = false).
    { intros r t R T. assert (D : dat r <> []) by (intros C; rewrite C in T; contradiction). destruct (local_spec r R D) as (x1 & c1 & y1 & c2 & X & Y1 & Y2 & Z1 & Z2).
      assert (K1 : In (fst c1) (flat_map f u)) by (apply in_flat_map; exists r; split; [apply U; auto|unfold f; rewrite X; left; reflexivity]).
      assert (K2 : In (fst c2) (flat_map f u)) by (apply in_flat_map; exists r; split; [apply U; auto|unfold f; rewrite X; right; left; reflexivity]).
      assert (Q : forall s q, less12 s q = false -> dltb (fst s) (fst q) = false) by (intros s q; unfold less12; destruct (dltb (fst s) (fst q)); [discriminate|reflexivity]).
      destruct (NUM r t R T) as (NT & _). assert (In a (flat_map f u)) by (eapply nth_error_In; exact N1). assert (In b (flat_map f u)) by (eapply nth_error_In; exact N2).
      split; [apply (SortProofs.le_trans num dltb a (fst c1) (fst t) DW)|apply (SortProofs.le_trans num dltb (fst t) (fst c2) b DW)]; auto. }
    assert (NA : num a) by (apply FP', (nth_error_In _ _ N1)). assert (NB : num b) by (apply FP', (nth_error_In _ _ N2)).
    assert (Q : forall s q, less12 s q = false -> dltb (fst s) (fst q) = false) by (intros s q; unfold less12; destruct (dltb (fst s) (fst q)); [discriminate|reflexivity]).
    assert (e1 = 0%nat) as ->.
    { destruct e1 as [|[|]]; [reflexivity| |lia]. exfalso. unfold f in E13. rewrite X1 in E13. cbn [fst nth_error] in E13. injection E13 as E13.
      assert (Y : nth_error (flat_map f u) (2 * n1) = Some (fst a1)).
      { rewrite (nth_error_nth' _ (fst a1)); [f_equal; replace (2 * n1)%nat with (2 * n1 + 0)%nat by lia; eapply flat_map_nth_in; try eassumption; [lia|unfold f; rewrite X1; reflexivity]|].
        apply nth_error_Some_length in N1. lia. }
      specialize (FI (2 * n1)%nat (fst a1) ltac:(lia) Y). rewrite <- E13 in FI. rewrite (Q b1 a1) in FI; [discriminate|]. apply MA1. apply (nth_error_In _ _ NB1). }
    assert (e2 = 1%nat) as ->.
    { destruct e2 as [|[|]]; [|reflexivity|lia]. exfalso. unfold f in E23. rewrite X2 in E23. cbn [fst nth_error] in E23. injection E23 as E23.
      assert (LL : (2 * n2 + 1 < length (flat_map f u))%nat) by (rewrite flat_map_two by exact F2; pose proof (nth_error_Some_length u n2 r2 U2); lia).
      assert (Y : nth_error (flat_map f u) (2 * n2 + 1) = Some (fst b2)).
      { rewrite (nth_error_nth' _ (fst b2)) by exact LL. f_equal. eapply flat_map_nth_in; try eassumption; [lia|unfold f; rewrite X2; reflexivity]. }
      specialize (LA (2 * n2 + 1)%nat (fst b2) ltac:(lia) Y). rewrite <- E23 in LA. rewrite (Q b2 a2) in LA; [discriminate|]. apply MA2. apply (nth_error_In _ _ NB2). }
    unfold f in E13, E23. rewrite X1 in E13. rewrite X2 in E23. cbn [fst nth_error] in E13, E23. injection E13 as <-. injection E23 as <-.
    exists r1, i1, a1, r2, j2, b2. split.
    { subst i j. f_equal; f_equal; eapply flat_map_nth_in; try eassumption; try lia; unfold g; [rewrite X1|rewrite X2]; reflexivity. }
    split; [exact R1|]. split; [exact NA1|]. split; [exact MA1|]. split; [intros r t R T; apply (BND r t R T)|]. split; [exact R2|]. split; [exact NB2|]. split; [exact MB2|]. intros r t R T; apply (BND r t R T).
  Qed.
  Lemma coord_none : (forall r, (r < p)%nat -> dat r = []) -> getCoordMinMax junk p off dat = (none_elem, none_elem).
  Proof using.
    clear NUM. intros H. unfold getCoordMinMax. cbv zeta. pose proof (drop_empty_spec (fun r => length (dat r)) (fun r => fst (loc r)) (fun r => proj1 (loc_two r)) p []) as DF. rewrite !app_nil_r in DF. fold loc.
    change (fun r => fst (local_minmax junk (off r) (dat r))) with (fun r => fst (loc r)). rewrite DF. replace (used (fun r => length (dat r)) p) with (@nil nat); [reflexivity|].
    symmetry. unfold used. assert (G : forall l, (forall r, In r l -> (r < p)%nat) -> filter (fun r => negb (length (dat r) =? 0)%nat) l = []).
    { induction l as [|r l IH]; intros L; [reflexivity|]. cbn [filter]. rewrite (H r) by (apply L; left; reflexivity). cbn. apply IH. intros; apply L; right; assumption. }
    apply G. intros r R. apply in_seq in R. lia.
  Qed.
End Coord.
