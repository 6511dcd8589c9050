(** Proofs about the parallel sort. *)
From Coq Require Import Sorted Permutation.
From Verif Require Import Base SortModel SortSpec.

Lemma total_weak {A} (P : A -> Prop) lt : strict_total P lt -> strict_weak P lt.
Proof.
  intros (I & T & C). split; [exact I|]. split; [exact T|]. intros x y z X Y Z A1 A2 B1 B2.
  rewrite (C x y X Y A1 A2). exact B1.
Qed.
Lemma weak_mono {A} (P Q : A -> Prop) lt : (forall x, Q x -> P x) -> strict_weak P lt -> strict_weak Q lt.
Proof. intros H (I & T & W). split; [auto|]. split; [intros x y z X Y Z; apply (T x y z); auto|intros x y z X Y Z; apply (W x y z); auto]. Qed.
Lemma total_mono {A} (P Q : A -> Prop) lt : (forall x, Q x -> P x) -> strict_total P lt -> strict_total Q lt.
Proof. intros H (I & T & W). split; [auto|]. split; [intros x y z X Y Z; apply (T x y z); auto|intros x y X Y; apply W; auto]. Qed.
(** "not greater" is transitive. *)
Lemma le_trans {A} (P : A -> Prop) lt x y z : strict_weak P lt -> P x -> P y -> P z -> lt y x = false -> lt z y = false -> lt z x = false.
Proof.
  intros (I & T & W) X Y Z A1 A2. destruct (lt z x) eqn:E; [|reflexivity]. exfalso.
  destruct (lt x y) eqn:E1; [rewrite (T z x y) in A2; congruence|].
  destruct (lt y z) eqn:E2; [rewrite (T y z x) in A1; congruence|].
  rewrite (W z y x) in E; congruence.
Qed.

(** Insertion sort: one function that keeps the contract. *)
Fixpoint insert {A} (lt : A -> A -> bool) (x : A) (l : list A) : list A :=
  match l with [] => [x] | y :: r => if lt y x then y :: insert lt x r else x :: l end.
Definition isort : sorter := fun A lt l => fold_right (insert lt) [] l.
Lemma insert_perm {A} lt (x : A) l : Permutation (x :: l) (insert lt x l).
Proof. induction l as [|y l IH]; [reflexivity|]. cbn. destruct (lt y x); [|reflexivity]. rewrite perm_swap. apply perm_skip, IH. Qed.
Lemma insert_sorted {A} (P : A -> Prop) lt x l : strict_weak P lt -> P x -> (forall y, In y l -> P y) -> sorted lt l -> sorted lt (insert lt x l).
Proof.
  intros W X. induction l as [|y l IH]; intros B S; [repeat constructor|]. cbn. inversion S as [|? ? S1 F]; subst.
  destruct (lt y x) eqn:E.
  - constructor; [apply IH; [intros; apply B; right; assumption|exact S1]|].
    apply Forall_forall. intros z Z. apply (Permutation_in _ (Permutation_sym (insert_perm lt x l))) in Z. destruct Z as [<-|Z].
    + destruct (lt x y) eqn:E2; [|reflexivity]. destruct W as (I & T & _). rewrite <- (I y) by (apply B; left; reflexivity). symmetry.
      apply (T y x y); auto; apply B; left; reflexivity.
    + rewrite Forall_forall in F. apply F, Z.
  - constructor; [exact S|]. constructor; [exact E|]. apply Forall_forall. intros z Z. rewrite Forall_forall in F.
    apply (le_trans P lt x y z W X); [apply B; left; reflexivity|apply B; right; exact Z|exact E|apply F, Z].
Qed.
Lemma isort_std : std_sort isort.
Proof.
  intros A lt l W. assert (X : forall l', (forall x, In x l' -> In x l) -> Permutation l' (isort A lt l') /\ sorted lt (isort A lt l')).
  { induction l' as [|x l' IH]; intros B; [split; constructor|]. destruct IH as (P1 & S1); [intros; apply B; right; assumption|].
    unfold isort in *. cbn [fold_right]. split; [rewrite <- insert_perm; apply perm_skip, P1|].
    apply (insert_sorted (fun y => In y l)); [exact W|apply B; left; reflexivity| |exact S1].
    intros y Y. apply B. right. apply (Permutation_in _ (Permutation_sym P1)), Y. }
  apply X. auto.
Qed.

(** ---- sorted lists ---- *)
Lemma sorted_app {A} lt (a b : list A) : sorted lt (a ++ b) <-> sorted lt a /\ sorted lt b /\ (forall x y, In x a -> In y b -> lt y x = false).
Proof.
  unfold sorted. induction a as [|x a IH]; cbn [app].
  - split; [intros H; split; [constructor|split; [exact H|intros ? ? []]]|tauto].
  - split.
    + intros H. inversion H as [|? ? S F]; subst. apply IH in S. destruct S as (S1 & S2 & S3). rewrite Forall_forall in F. split; [|split].
      * constructor; [exact S1|]. apply Forall_forall. intros. apply F, in_or_app. auto.
      * exact S2.
      * intros u y [<-|U] Y; [apply F, in_or_app; auto|apply S3; auto].
    + intros (S1 & S2 & S3). inversion S1 as [|? ? S F]; subst. constructor.
      * apply IH. split; [exact S|]. split; [exact S2|]. intros. apply S3; [right; assumption|assumption].
      * apply Forall_forall. intros y Y. apply in_app_or in Y. destruct Y as [Y|Y]; [rewrite Forall_forall in F; apply F, Y|apply S3; [left; reflexivity|exact Y]].
Qed.
Lemma sorted_firstn {A} lt n (l : list A) : sorted lt l -> sorted lt (firstn n l).
Proof. intros H. rewrite <- (firstn_skipn n l) in H. apply sorted_app in H. tauto. Qed.
Lemma sorted_unique {A} (P : A -> Prop) lt : strict_total P lt -> forall a b : list A, (forall x, In x a -> P x) -> Permutation a b -> sorted lt a -> sorted lt b -> a = b.
Proof.
  intros (I & T & C). induction a as [|x a IH]; intros b PA PM SA SB; [apply Permutation_nil in PM; congruence|].
  destruct b as [|y b]; [apply Permutation_sym, Permutation_nil in PM; discriminate|].
  assert (E : x = y).
  { assert (X : In x (y :: b)) by (apply (Permutation_in _ PM); left; reflexivity).
    assert (Y : In y (x :: a)) by (apply (Permutation_in _ (Permutation_sym PM)); left; reflexivity).
    inversion SA as [|? ? _ FA]; inversion SB as [|? ? _ FB]; subst. rewrite Forall_forall in FA, FB.
    destruct X as [->|X]; [reflexivity|]. destruct Y as [->|Y]; [reflexivity|].
    apply C; [apply PA; left; reflexivity|apply PA; right; exact Y|apply FB; exact X|apply FA; exact Y]. }
  subst y. f_equal. inversion SA; inversion SB; subst. apply IH; try assumption; [intros; apply PA; right; assumption|].
  apply (Permutation_cons_inv PM).
Qed.
Lemma nodup_app_r {A} : forall a b : list A, NoDup (a ++ b) -> NoDup b.
Proof. induction a as [|x a IH]; intros b N; [exact N|]. inversion N; subst. apply IH. assumption. Qed.
Lemma nodup_app_l {A} (a b : list A) : NoDup (a ++ b) -> NoDup a.
Proof. intros N. apply (nodup_app_r b). apply (Permutation_NoDup (Permutation_app_comm a b) N). Qed.

(** ---- one round ---- *)
Lemma firstn_app_len {A} (a b : list A) : firstn (length a) (a ++ b) = a.
Proof. rewrite firstn_app, firstn_all, Nat.sub_diag. cbn. apply app_nil_r. Qed.
Lemma skipn_app_len {A} (a b : list A) : skipn (length a) (a ++ b) = b.
Proof. rewrite skipn_app, skipn_all, Nat.sub_diag. reflexivity. Qed.
Lemma all_S {A} k (d : nat -> list A) : all (S k) d = all k d ++ d k.
Proof. unfold all. rewrite seq_S, flat_map_app. cbn. rewrite app_nil_r. reflexivity. Qed.
Lemma all_in {A} k (d : nat -> list A) x : In x (all k d) <-> exists r, (r < k)%nat /\ In x (d r).
Proof.
  unfold all. rewrite in_flat_map. split; intros (r & H1 & H2); exists r; [apply in_seq in H1|]; (split; [|exact H2]); [lia|]. apply in_seq. lia.
Qed.
Lemma all_ext {A} k (d e : nat -> list A) : (forall r, (r < k)%nat -> d r = e r) -> all k d = all k e.
Proof. induction k; intros H; [reflexivity|]. rewrite !all_S, IHk, H; [reflexivity|lia|]. intros; apply H; lia. Qed.

Lemma nodup_rank {A} p (d : nat -> list A) r : NoDup (all p d) -> (r < p)%nat -> NoDup (d r).
Proof.
  intros ND H. unfold all in ND. replace p with (r + (1 + (p - r - 1)))%nat in ND by lia. rewrite seq_app, flat_map_app in ND.
  apply nodup_app_r in ND. rewrite seq_app, flat_map_app in ND. apply nodup_app_l in ND. cbn in ND. rewrite app_nil_r in ND. exact ND.
Qed.

(** What one round does, in terms of the vectors without their spare ends. *)
Section Round.
Context {A : Type} (s : list A -> list A) (p R : nat) (d : nat -> list A).
Definition head (r : nat) := firstn (edge1 R r) (d r).
Definition rest (r : nat) := skipn (edge1 R r) (d r).
Definition next (r : nat) := if Nat.eqb r (p - 1) then [] else firstn R (d (S r)).
Definition mid (r : nat) := s (rest r ++ next r).
Definition low (r : nat) := firstn (length (mid r) - edge2 p R r) (mid r).
Definition high (r : nat) := skipn (length (mid r) - edge2 p R r) (mid r).
Definition carry (r : nat) := match r with O => [] | S q => high q end.
Definition new (r : nat) := s (carry r ++ low r).
End Round.

Definition with_end {A} (p R : nat) (d t : nat -> list A) : Prop :=
  forall r, (r < p)%nat -> exists e, t r = d r ++ e /\ length e = edge2 p R r.
Lemma edge2_le p R r : (edge2 p R r <= R)%nat.
Proof. unfold edge2. destruct (Nat.eqb _ _); lia. Qed.
Lemma edge1_le R r : (edge1 R r <= R)%nat.
Proof. unfold edge1. destruct (Nat.eqb _ _); lia. Qed.
Lemma next_len {A} p R (d : nat -> list A) r : (r < p)%nat -> (forall q, (q < p)%nat -> (R <= length (d q))%nat) -> length (next p R d r) = edge2 p R r.
Proof.
  intros H L. unfold next, edge2. destruct (Nat.eqb_spec r (p - 1)); [reflexivity|]. rewrite firstn_length. specialize (L (S r)). lia.
Qed.
Lemma head_rest {A} R (d : nat -> list A) r : d r = head R d r ++ rest R d r.
Proof. symmetry. apply firstn_skipn. Qed.
(** ---- rounds keep the traces ---- *)
Lemma carried {A} (s : list A -> list A) p R d : (forall l, In l (map (fun r => rest R d r ++ next p R d r) (seq 0 p)) -> Permutation l (s l)) ->
  (forall r, (r < p)%nat -> Permutation (carry s p R d r ++ low s p R d r) (new s p R d r)) ->
  forall k, (k < p)%nat -> Permutation (all k (new s p R d) ++ carry s p R d k) (all k d ++ head R d k).
Proof.
  intros PM PN. induction k as [|k IH]; intros K; [reflexivity|]. rewrite !all_S. cbn [carry].
  assert (E : head R d (S k) = next p R d k) by (unfold head, next, edge1; cbn [Nat.eqb]; destruct (Nat.eqb_spec k (p - 1)); [lia|reflexivity]).
  rewrite E. rewrite <- (PN k) by lia. rewrite <- !app_assoc. unfold low, high. rewrite firstn_skipn. rewrite app_assoc, (IH ltac:(lia)).
  rewrite <- app_assoc. apply Permutation_app_head. transitivity ((head R d k ++ rest R d k) ++ next p R d k); [|rewrite <- head_rest; reflexivity]. rewrite <- app_assoc. apply Permutation_app_head.
  symmetry. apply PM. apply in_map_iff. exists k. split; [reflexivity|apply in_seq; lia].
Qed.
Lemma round_perm {A} (s : list A -> list A) p R d : (0 < p)%nat ->
  (forall l, In l (map (fun r => rest R d r ++ next p R d r) (seq 0 p)) -> Permutation l (s l)) ->
  (forall r, (r < p)%nat -> Permutation (carry s p R d r ++ low s p R d r) (new s p R d r)) ->
  Permutation (all p (new s p R d)) (all p d).
Proof.
  intros P PM PN. destruct p as [|k]; [lia|]. rewrite !all_S. rewrite <- (PN k) by lia.
  pose proof (carried s (S k) R d PM PN k ltac:(lia)) as C. rewrite app_assoc, C, <- app_assoc. apply Permutation_app_head.
  assert (E : low s (S k) R d k = mid s (S k) R d k) by (unfold low, edge2; replace (S k - 1)%nat with k by lia; rewrite Nat.eqb_refl, Nat.sub_0_r; apply firstn_all).
  rewrite E. transitivity (head R d k ++ rest R d k); [|rewrite <- head_rest; reflexivity]. apply Permutation_app_head. symmetry.
  assert (N : next (S k) R d k = []) by (unfold next; replace (S k - 1)%nat with k by lia; rewrite Nat.eqb_refl; reflexivity).
  unfold mid. rewrite N. specialize (PM (rest R d k ++ next (S k) R d k)). rewrite N in PM. rewrite app_nil_r in *. apply PM. apply in_map_iff.
  exists k. rewrite N, app_nil_r. split; [reflexivity|apply in_seq; lia].
Qed.

(** ---- a round that changes nothing on the first k ranks ---- *)
Section Stable.
Context {A : Type} (s : list A -> list A) (lt : A -> A -> bool) (p R : nat) (d : nat -> list A).
Hypothesis W : strict_weak (fun x => In x (all p d)) lt.
Hypothesis S1 : forall l, (forall x, In x l -> In x (all p d)) -> Permutation l (s l) /\ sorted lt (s l).
Hypothesis P : (0 < p)%nat.
Lemma in_rest r x : In x (rest R d r) -> In x (d r).
Proof using. intros X. rewrite (head_rest R d r). apply in_or_app. auto. Qed.
Lemma in_head r x : In x (head R d r) -> In x (d r).
Proof using. intros X. rewrite (head_rest R d r). apply in_or_app. auto. Qed.
Lemma in_next r x : (r < p)%nat -> In x (next p R d r) -> (S r < p)%nat /\ In x (d (S r)).
Proof using.
  clear P. unfold next. intros H. destruct (Nat.eqb_spec r (p - 1)); [intros []|]. intros X. split; [lia|].
  rewrite <- (firstn_skipn R (d (S r))). apply in_or_app. auto.
Qed.
Lemma mid_ok r : (r < p)%nat -> Permutation (rest R d r ++ next p R d r) (mid s p R d r) /\ sorted lt (mid s p R d r).
Proof using S1 P.
  intros H. apply S1. intros x X. apply in_app_or in X. destruct X as [X|X].
  - apply all_in. exists r. split; [exact H|apply in_rest, X].
  - destruct (in_next r x H X). apply all_in. eauto.
Qed.
Lemma in_mid r x : (r < p)%nat -> In x (mid s p R d r) -> In x (all p d).
Proof using S1 P.
  intros H X. apply (Permutation_in _ (Permutation_sym (proj1 (mid_ok r H)))) in X. apply in_app_or in X. destruct X as [X|X].
  - apply all_in. exists r. split; [exact H|apply in_rest, X].
  - destruct (in_next r x H X). apply all_in. eauto.
Qed.
Lemma low_high r : mid s p R d r = low s p R d r ++ high s p R d r.
Proof using. symmetry. apply firstn_skipn. Qed.
Lemma new_ok r : (r < p)%nat -> Permutation (carry s p R d r ++ low s p R d r) (new s p R d r) /\ sorted lt (new s p R d r).
Proof using S1 P.
  intros H. apply S1. intros x X. apply in_app_or in X. destruct X as [X|X].
  - destruct r as [|q]; [destruct X|]. apply (in_mid q x ltac:(lia)). rewrite low_high. apply in_or_app. auto.
  - apply (in_mid r x H). rewrite low_high. apply in_or_app. auto.
Qed.
Lemma round_keeps : Permutation (all p (new s p R d)) (all p d).
Proof using S1 P.
  apply round_perm; [exact P| |intros r H; apply new_ok, H]. intros l I. apply in_map_iff in I. destruct I as (r & <- & I). apply in_seq in I. apply mid_ok. lia.
Qed.
Lemma stable_carry k : (k < p)%nat -> (forall r, (r < k)%nat -> new s p R d r = d r) -> Permutation (carry s p R d k) (head R d k).
Proof using S1 P.
  intros K E. apply (Permutation_app_inv_l (all k d)). rewrite <- (all_ext k _ _ E) at 1. apply carried; [|intros; apply new_ok; assumption|exact K].
  intros l I. apply in_map_iff in I. destruct I as (r & <- & I). apply in_seq in I. apply mid_ok. lia.
Qed.
Lemma stable_low k : (k < p)%nat -> (forall r, (r <= k)%nat -> new s p R d r = d r) -> Permutation (low s p R d k) (rest R d k).
Proof using S1 P.
  intros K E. apply (Permutation_app_inv_l (head R d k)). rewrite <- (stable_carry k K) at 1 by (intros; apply E; lia).
  rewrite (proj1 (new_ok k K)), (E k) by lia. rewrite <- head_rest. reflexivity.
Qed.
Hypothesis SD : forall r, (r < p)%nat -> sorted lt (d r).
Hypothesis L : forall r, (r < p)%nat -> (2 * R <= length (d r))%nat.
Hypothesis RP : (0 < R)%nat.
Lemma stable_pair k : (S k < p)%nat -> (forall r, (r < p)%nat -> new s p R d r = d r) ->
  forall x y, In x (d k) -> In y (d (S k)) -> lt y x = false.
Proof.
  intros K E x y X Y.
  assert (HN : next p R d k = head R d (S k)) by (unfold next, head, edge1; cbn [Nat.eqb]; destruct (Nat.eqb_spec k (p - 1)); [lia|reflexivity]).
  assert (PL : Permutation (low s p R d k) (rest R d k)) by (apply stable_low; [lia|]; intros; apply E; lia).
  assert (PH : Permutation (high s p R d k) (head R d (S k))) by (apply (stable_carry (S k)); [lia|]; intros; apply E; lia).
  destruct (mid_ok k ltac:(lia)) as (_ & SM). rewrite low_high in SM. apply sorted_app in SM. destruct SM as (_ & _ & LH).
  assert (RL : forall a b, In a (rest R d k) -> In b (head R d (S k)) -> lt b a = false).
  { intros a b Ia Ib. apply LH; [apply (Permutation_in _ (Permutation_sym PL)), Ia|apply (Permutation_in _ (Permutation_sym PH)), Ib]. }
  assert (IK : forall z, In z (d k) -> In z (all p d)) by (intros; apply all_in; exists k; split; [lia|assumption]).
  assert (IK1 : forall z, In z (d (S k)) -> In z (all p d)) by (intros; apply all_in; exists (S k); split; [lia|assumption]).
  (* the first element on rank k+1 is not greater than y *)
  assert (FY : exists b, In b (head R d (S k)) /\ lt y b = false).
  { pose proof (SD (S k) K) as SS. unfold head, edge1. cbn [Nat.eqb]. specialize (L (S k) K). destruct (d (S k)) as [|b l] eqn:ED; [destruct Y|].
    exists b. destruct R as [|R']; [lia|]. split; [left; reflexivity|]. inversion SS as [|? ? _ F]; subst. rewrite Forall_forall in F.
    destruct Y as [->|Y]; [apply (proj1 W), IK1; left; reflexivity|apply F, Y]. }
  destruct FY as (b & Ib & Eb).
  (* some element of the rest on rank k is not smaller than x *)
  assert (FX : exists a, In a (rest R d k) /\ lt a x = false).
  { pose proof (SD k ltac:(lia)) as SS. pose proof (head_rest R d k) as HR. rewrite HR in SS, X. apply sorted_app in SS. destruct SS as (_ & _ & CR).
    apply in_app_or in X. destruct X as [X|X].
    - assert (NE : rest R d k <> []).
      { intros Q. assert (LL : length (rest R d k) = 0%nat) by (rewrite Q; reflexivity). unfold rest in LL. rewrite skipn_length in LL.
        pose proof (edge1_le R k). specialize (L k ltac:(lia)). lia. }
      destruct (rest R d k) as [|a l] eqn:ER; [contradiction|]. exists a. split; [left; reflexivity|]. apply CR; [exact X|left; reflexivity].
    - exists x. split; [exact X|]. apply (proj1 W), IK, in_rest, X. }
  destruct FX as (a & Ia & Ea).
  assert (BX : lt b x = false) by (apply (le_trans _ lt x a b W); [apply IK, X|apply IK, in_rest, Ia|apply IK1, in_head, Ib|exact Ea|apply RL; assumption]).
  apply (le_trans _ lt x b y W); [apply IK, X|apply IK1, in_head, Ib|apply IK1, Y|exact BX|exact Eb].
Qed.
Lemma stable_sorted : (forall r, (r < p)%nat -> new s p R d r = d r) -> sorted lt (all p d).
Proof.
  intros E. assert (X : forall k, (k <= p)%nat -> sorted lt (all k d)).
  { assert (NE : forall r, (r < p)%nat -> d r <> []) by (intros r H Q; specialize (L r H); rewrite Q in L; cbn in L; lia).
    induction k as [|k IH]; intros K; [constructor|]. rewrite all_S. apply sorted_app. split; [apply IH; lia|]. split; [apply SD; lia|].
    (* by transitivity through rank k-1 *)
    assert (C : forall j, (j < k)%nat -> forall x y, In x (d j) -> In y (d k) -> lt y x = false).
    { clear IH. intros j. remember (k - j)%nat as n eqn:N. revert j N. induction n as [|n IH]; intros j N J x y X Y; [lia|].
      destruct (Nat.eq_dec (S j) k) as [<-|NK]; [apply (stable_pair j); [lia|exact E|exact X|exact Y]|].
      assert (Q : exists z, In z (d (S j))) by (specialize (NE (S j) ltac:(lia)); destruct (d (S j)) as [|z l]; [contradiction|exists z; left; reflexivity]).
      destruct Q as (z & Q). apply (le_trans _ lt x z y W).
      - apply all_in. exists j. split; [lia|exact X].
      - apply all_in. exists (S j). split; [lia|exact Q].
      - apply all_in. exists k. split; [lia|exact Y].
      - apply (stable_pair j); [lia|exact E|exact X|exact Q].
      - apply (IH (S j)); [lia|lia|exact Q|exact Y]. }
    intros x y X Y. apply all_in in X. destruct X as (j & J & X). apply (C j J x y X Y). }
  apply X. lia.
Qed.
End Stable.

Lemma round_new {A} (s : list A -> list A) (lt : A -> A -> bool) p R d t :
  (forall l, (forall x, In x l -> In x (all p d)) -> Permutation l (s l) /\ sorted lt (s l)) -> (0 < p)%nat -> (forall q, (q < p)%nat -> (2 * R <= length (d q))%nat) ->
  with_end p R d t -> with_end p R (new s p R d) (round s p R t) /\ forall r, (r < p)%nat -> length (new s p R d r) = length (d r).
Proof.
  intros S1 P L W.
  assert (L1 : forall q, (q < p)%nat -> (R <= length (d q))%nat) by (intros q Q; specialize (L q Q); lia).
  (* after sendLeft *)
  assert (T0 : forall r, (r < p)%nat -> sendLeft p R t r = d r ++ next p R d r).
  { intros r H. destruct (W r H) as (e & E & EL). unfold sendLeft, next. unfold edge2 in EL. destruct (Nat.eqb_spec r (p - 1)) as [->|NE].
    - destruct e; [|discriminate]. exact E.
    - rewrite E, app_length, EL. replace (length (d r) + R - R)%nat with (length (d r)) by lia. rewrite firstn_app_len. f_equal.
      destruct (W (S r) ltac:(lia)) as (e' & -> & _). rewrite firstn_app. specialize (L1 (S r) ltac:(lia)).
      replace (R - length (d (S r)))%nat with 0%nat by lia. cbn. apply app_nil_r. }
  set (t1 := fun r => sortTail s (edge1 R r) (sendLeft p R t r)).
  assert (ML : forall r, (r < p)%nat -> length (mid s p R d r) = (length (d r) - edge1 R r + edge2 p R r)%nat).
  { intros r H. rewrite <- (Permutation_length (proj1 (mid_ok s lt p R d S1 P r H))), app_length, (next_len p R d r H L1). unfold rest. rewrite skipn_length. reflexivity. }
  assert (T1 : forall r, (r < p)%nat -> t1 r = head R d r ++ mid s p R d r).
  { intros r H. unfold t1, sortTail. rewrite (T0 r H). pose proof (edge1_le R r). specialize (L1 r H).
    rewrite firstn_app, skipn_app. replace (edge1 R r - length (d r))%nat with 0%nat by lia. cbn [firstn skipn]. rewrite app_nil_r. reflexivity. }
  assert (T2 : forall r, (r < p)%nat -> sendRight R t1 r = (carry s p R d r ++ low s p R d r) ++ high s p R d r).
  { intros r H. rewrite <- app_assoc. unfold low, high. rewrite firstn_skipn. unfold sendRight. destruct r as [|q]; cbn [Nat.eqb carry].
    - rewrite (T1 0%nat H). reflexivity.
    - replace (S q - 1)%nat with q by lia. rewrite (T1 q) by lia. rewrite (T1 (S q) H). f_equal.
      + unfold high. assert (E2 : edge2 p R q = R) by (unfold edge2; destruct (Nat.eqb_spec q (p - 1)); [lia|reflexivity]). rewrite E2.
        rewrite app_length, skipn_app. pose proof (ML q ltac:(lia)) as M. rewrite E2 in M. specialize (L q ltac:(lia)). pose proof (edge1_le R q).
        rewrite (skipn_all2 (head R d q)) by lia. cbn [app]. f_equal. lia.
      + assert (HL : length (head R d (S q)) = R) by (unfold head, edge1; cbn [Nat.eqb]; rewrite firstn_length; specialize (L1 (S q) H); lia).
        rewrite <- HL at 1. apply skipn_app_len. }
  assert (HI : forall r, (r < p)%nat -> length (high s p R d r) = edge2 p R r).
  { intros r H. unfold high. rewrite skipn_length, (ML r H). lia. }
  assert (NL : forall r, (r < p)%nat -> length (carry s p R d r ++ low s p R d r) = length (d r)).
  { intros r H. rewrite app_length. unfold low. rewrite firstn_length, (ML r H). pose proof (edge1_le R r). specialize (L r H).
    destruct r as [|q]; cbn [carry length]; [unfold edge1; cbn [Nat.eqb]; lia|]. rewrite (HI q) by lia.
    unfold edge1, edge2 at 1. cbn [Nat.eqb]. destruct (Nat.eqb_spec q (p - 1)); lia. }
  split.
  - intros r H. exists (high s p R d r). split; [|exact (HI r H)]. unfold round. fold t1. unfold sortHead. rewrite (T2 r H).
    rewrite app_length, (HI r H). replace (length (carry s p R d r ++ low s p R d r) + edge2 p R r - edge2 p R r)%nat with (length (carry s p R d r ++ low s p R d r)) by lia.
    rewrite firstn_app_len, skipn_app_len. reflexivity.
  - intros r H. rewrite <- (Permutation_length (proj1 (new_ok s lt p R d S1 P r H))). apply NL, H.
Qed.

(** ---- a round that changes something ---- *)
(** [smaller lt l' l]: at the first difference l' has the smaller element. *)
Fixpoint smaller {A} (lt : A -> A -> bool) (a b : list A) : Prop :=
  match a, b with x :: a, y :: b => lt x y = true \/ x = y /\ smaller lt a b | _, _ => False end.
Lemma smaller_app {A} lt (c a b x y : list A) : smaller lt a b -> smaller lt (c ++ a ++ x) (c ++ b ++ y).
Proof.
  intros H. induction c as [|z c IH]; cbn [app smaller]; [|right; auto]. revert b H. induction a as [|u a IH]; intros [|v b] H; cbn in *; try contradiction.
  destruct H as [H|(-> & H)]; [left; exact H|right; split; [reflexivity|apply IH, H]].
Qed.
(** Two sorted lists of the same length without repetition: equal, or first
    differing at a definite place. *)
Lemma first_difference {A} lt : forall a b : list A, length a = length b -> (forall x y, In x a -> In y b -> lt x y = false -> lt y x = false -> x = y) ->
  a = b \/ smaller lt a b \/ exists c x a' y b', a = c ++ x :: a' /\ b = c ++ y :: b' /\ lt y x = true.
Proof.
  induction a as [|x a IH]; intros [|y b] LE C; try discriminate; [left; reflexivity|].
  destruct (lt x y) eqn:E1; [right; left; cbn; auto|]. destruct (lt y x) eqn:E2.
  - right. right. exists [], x, a, y, b. auto.
  - assert (x = y) as -> by (apply C; [left; reflexivity|left; reflexivity|exact E1|exact E2]).
    destruct (IH b) as [->|[S|(c & u & a' & v & b' & -> & -> & E)]].
    + cbn in LE. lia.
    + intros u v U V. apply C; right; assumption.
    + left. reflexivity.
    + right. left. cbn. auto.
    + right. right. exists (y :: c), u, a', v, b'. auto.
Qed.
Section Progress.
Context {A : Type} (s : list A -> list A) (lt : A -> A -> bool) (p R : nat) (d : nat -> list A).
Hypothesis T : strict_total (fun x => In x (all p d)) lt.
Hypothesis ND : NoDup (all p d).
Hypothesis S1 : forall l, (forall x, In x l -> In x (all p d)) -> Permutation l (s l) /\ sorted lt (s l).
Hypothesis P : (0 < p)%nat.
Hypothesis SD : forall r, (r < p)%nat -> sorted lt (d r).
Lemma progress_rank k : (k < p)%nat -> (forall r, (r < k)%nat -> new s p R d r = d r) -> length (new s p R d k) = length (d k) ->
  new s p R d k = d k \/ smaller lt (new s p R d k) (d k).
Proof.
  intros K E LN. pose proof (total_weak _ _ T) as W. destruct T as (I & TR & C).
  destruct (new_ok s lt p R d S1 P k K) as (PN & SN).
  pose proof (stable_carry s lt p R d S1 P k K E) as PC.
  assert (PN' : Permutation (head R d k ++ low s p R d k) (new s p R d k)) by (rewrite <- PN; apply Permutation_app_tail; symmetry; exact PC).
  assert (INA : forall x, In x (new s p R d k) -> In x (all p d)).
  { intros x X. apply (Permutation_in _ (Permutation_sym PN')) in X. apply in_app_or in X. destruct X as [X|X].
    - apply all_in. exists k. split; [exact K|apply (in_head R), X].
    - apply (in_mid s lt p R d S1 P k x K). rewrite low_high. apply in_or_app. auto. }
  assert (IND : forall x, In x (d k) -> In x (all p d)) by (intros; apply all_in; eauto).
  destruct (first_difference lt (new s p R d k) (d k) LN) as [Q|[Q|(c & x & a' & y & b' & E1 & E2 & LT)]]; [intros; apply C; auto|left; exact Q|right; exact Q|exfalso].
  assert (YD : In y (d k)) by (rewrite E2; apply in_or_app; right; left; reflexivity).
  assert (XN : In x (new s p R d k)) by (rewrite E1; apply in_or_app; right; left; reflexivity).
  (* y is not in the new vector *)
  assert (YN : ~ In y (new s p R d k)).
  { rewrite E1. intros Y. apply in_app_or in Y. destruct Y as [Y|[<-|Y]].
    - pose proof (nodup_rank p d k ND K) as N. rewrite E2 in N. apply NoDup_remove_2 in N. apply N, in_or_app. auto.
    - rewrite (I x (INA x XN)) in LT. discriminate.
    - rewrite E1 in SN. apply sorted_app in SN. destruct SN as (_ & SN & _). inversion SN as [|? ? _ F]; subst. rewrite Forall_forall in F. rewrite (F y Y) in LT. discriminate. }
  destruct (mid_ok s lt p R d S1 P k K) as (PM & SM).
  (* so it is among the high elements *)
  assert (YH : In y (high s p R d k)).
  { assert (YR : In y (rest R d k)).
    { rewrite (head_rest R d k) in YD. apply in_app_or in YD. destruct YD as [Y|Y]; [|exact Y]. exfalso. apply YN. apply (Permutation_in _ PN'), in_or_app. auto. }
    assert (YM : In y (mid s p R d k)) by (apply (Permutation_in _ PM), in_or_app; auto).
    rewrite low_high in YM. apply in_app_or in YM. destruct YM as [Y|Y]; [|exact Y]. exfalso. apply YN. apply (Permutation_in _ PN'), in_or_app. auto. }
  rewrite low_high in SM. apply sorted_app in SM. destruct SM as (_ & _ & LH).
  assert (INC : incl (new s p R d k) (d k)).
  { intros z Z. pose proof (INA z Z) as ZA. pose proof Z as Z'. apply (Permutation_in _ (Permutation_sym PN')) in Z. apply in_app_or in Z. destruct Z as [Z|Z]; [apply (in_head R), Z|].
    (* z is low: not greater than y, hence in the common part *)
    specialize (LH z y Z YH). assert (ZY : lt z y = true).
    { destruct (lt z y) eqn:Q; [reflexivity|]. exfalso. apply YN. rewrite (C y z) by auto. exact Z'. }
    assert (ZX : lt z x = true) by (apply (TR z y x); auto).
    rewrite E1 in Z'. apply in_app_or in Z'. destruct Z' as [Z'|[<-|Z']].
    - rewrite E2. apply in_or_app. auto.
    - rewrite (I x ZA) in ZX. discriminate.
    - rewrite E1 in SN. apply sorted_app in SN. destruct SN as (_ & SN & _). inversion SN as [|? ? _ F]; subst. rewrite Forall_forall in F. rewrite (F z Z') in ZX. discriminate. }
  apply YN. assert (NN : NoDup (new s p R d k)).
  { apply (nodup_rank p); [|exact K]. apply (Permutation_NoDup (Permutation_sym (round_keeps s lt p R d S1 P)) ND). }
  refine (NoDup_length_incl NN _ INC y YD). lia.
Qed.
Lemma progress : (forall r, (r < p)%nat -> length (new s p R d r) = length (d r)) ->
  (forall r, (r < p)%nat -> new s p R d r = d r) \/ smaller lt (all p (new s p R d)) (all p d).
Proof.
  intros LN.
  assert (X : forall k, (k <= p)%nat -> (forall r, (r < k)%nat -> new s p R d r = d r) \/ exists j, (j < k)%nat /\ (forall r, (r < j)%nat -> new s p R d r = d r) /\ smaller lt (new s p R d j) (d j)).
  { induction k as [|k IH]; intros K; [left; intros; lia|]. destruct (IH ltac:(lia)) as [H|(j & J & H1 & H2)]; [|right; exists j; repeat split; try assumption; lia].
    destruct (progress_rank k ltac:(lia) H (LN k ltac:(lia))) as [E|E].
    - left. intros r Q. destruct (Nat.eq_dec r k) as [->|]; [exact E|apply H; lia].
    - right. exists k. repeat split; try assumption; lia. }
  destruct (X p (Nat.le_refl p)) as [H|(j & J & H1 & H2)]; [left; exact H|right].
  assert (SP : forall e : nat -> list A, all p e = all j e ++ e j ++ flat_map e (seq (S j) (p - j - 1))).
  { intros e. unfold all. replace p with (j + (1 + (p - j - 1)))%nat at 1 by lia. rewrite seq_app, flat_map_app. reflexivity. }
  rewrite (SP (new s p R d)), (SP d). rewrite (all_ext j _ _ H1). apply smaller_app, H2.
Qed.
End Progress.

(** ---- "smaller" cannot go on for ever ---- *)
Definition place {A} (lt : A -> A -> bool) (u : list A) (x : A) : nat := length (filter (fun y => lt y x) u).
Definition code {A} (f : A -> nat) (n : nat) (l : list A) (a : nat) : nat := fold_left (fun a x => (a * S n + f x)%nat) l a.
Lemma place_bound {A} lt (u : list A) x : (place lt u x <= length u)%nat.
Proof. unfold place. induction u as [|y u IH]; cbn; [lia|]. destruct (lt y x); cbn; lia. Qed.
Lemma filter_le {A} (f g : A -> bool) : forall l, (forall x, In x l -> f x = true -> g x = true) -> (length (filter f l) <= length (filter g l))%nat.
Proof.
  induction l as [|y l IH]; intros H; [cbn; lia|]. cbn [filter]. pose proof (H y (or_introl eq_refl)). specialize (IH (fun x X => H x (or_intror X))).
  destruct (f y); [rewrite H0 by reflexivity; cbn; lia|destruct (g y); cbn; lia].
Qed.
Lemma place_lt {A} lt (u : list A) x y : strict_weak (fun z => In z u) lt -> In x u -> In y u -> lt x y = true -> (place lt u x < place lt u y)%nat.
Proof.
  intros (I & T & _) X Y H. unfold place.
  apply in_split in X as X'. destruct X' as (a & b & ->). rewrite !filter_app, !app_length. cbn [filter]. rewrite (I x X), H. cbn [length].
  assert (F : forall l, (forall z, In z l -> In z (a ++ x :: b)) -> (length (filter (fun z => lt z x) l) <= length (filter (fun z => lt z y) l))%nat).
  { intros l L. apply filter_le. intros z Z Q. apply (T z x y); auto. }
  pose proof (F a ltac:(intros; apply in_or_app; auto)). pose proof (F b ltac:(intros; apply in_or_app; right; right; assumption)). lia.
Qed.
Lemma code_mono {A} (f : A -> nat) n : forall l a b, (a <= b)%nat -> (code f n l a <= code f n l b)%nat.
Proof. unfold code. induction l as [|x l IH]; intros a b H; [exact H|]. cbn [fold_left]. apply IH. apply Nat.add_le_mono_r, Nat.mul_le_mono_r, H. Qed.
Lemma code_gap {A} (f : A -> nat) n : (forall x, (f x <= n)%nat) -> forall l l' a b, length l = length l' -> (a < b)%nat -> (code f n l a < code f n l' b)%nat.
Proof.
  intros B. unfold code. induction l as [|x l IH]; intros [|y l'] a b LE H; try discriminate; [exact H|]. cbn [fold_left]. apply IH; [cbn in LE; lia|].
  assert ((S a * S n <= b * S n)%nat) by (apply Nat.mul_le_mono_r; lia). specialize (B x). lia.
Qed.
Lemma code_smaller {A} lt (u : list A) : strict_weak (fun z => In z u) lt -> forall a b c, length a = length b -> (forall x, In x a -> In x u) -> (forall x, In x b -> In x u) ->
  smaller lt a b -> (code (place lt u) (length u) a c < code (place lt u) (length u) b c)%nat.
Proof.
  intros W. induction a as [|x a IH]; intros [|y b] c LE XA XB S; try (cbn in S; contradiction). cbn [smaller] in S. unfold code in *. cbn [fold_left].
  destruct S as [S|(-> & S)].
  - apply (code_gap (place lt u) (length u) (place_bound lt u)); [cbn in LE; lia|].
    pose proof (place_lt lt u x y W (XA x (or_introl eq_refl)) (XB y (or_introl eq_refl)) S). lia.
  - apply IH; [cbn in LE; lia|intros; apply XA; right; assumption|intros; apply XB; right; assumption|exact S].
Qed.

(** ---- the loop ---- *)
Lemma differs_false {A} (neq : A -> A -> bool) : forall l l', length l = length l' -> (forall x y, In x l -> In y l' -> neq x y = false -> x = y) ->
  differs neq l l' = false -> l = l'.
Proof.
  induction l as [|x l IH]; intros [|y l'] LE H D; try discriminate; [reflexivity|]. cbn in D. apply orb_false_iff in D. destruct D as (D1 & D2).
  f_equal; [apply H; [left; reflexivity|left; reflexivity|exact D1]|apply IH; [cbn in LE; lia| |exact D2]]. intros u v U V. apply H; right; assumption.
Qed.
Lemma differs_refl {A} (neq : A -> A -> bool) : forall l, (forall x, In x l -> neq x x = false) -> differs neq l l = false.
Proof. induction l as [|x l IH]; intros H; [reflexivity|]. cbn. rewrite (H x) by (left; reflexivity). apply IH. intros; apply H; right; assumption. Qed.
Section Loop.
Context {A : Type} (s : list A -> list A) (lt neq : A -> A -> bool) (p R : nat) (u : list A).
Hypothesis W : strict_weak (fun x => In x u) lt.
Hypothesis S1 : forall l, (forall x, In x l -> In x u) -> Permutation l (s l) /\ sorted lt (s l).
Hypothesis NQ : forall x y, In x u -> In y u -> neq x y = false -> x = y.
Hypothesis P : (0 < p)%nat.
Definition inv (lnt : nat -> nat) (d : nat -> list A) : Prop :=
  Permutation (all p d) u /\ (forall r, (r < p)%nat -> sorted lt (d r)) /\ (forall r, (r < p)%nat -> length (d r) = lnt r).
Lemma tabulate_eq (f : nat -> list A) r : (r < p)%nat -> tabulate p f r = f r.
Proof using.
  intros H. unfold tabulate. rewrite (nth_indep _ [] (f 0%nat)) by (rewrite map_length, seq_length; exact H). rewrite map_nth. f_equal. apply seq_nth, H.
Qed.
Lemma inv_step lnt d t : inv lnt d -> with_end p R d t -> (forall r, (r < p)%nat -> (2 * R <= lnt r)%nat) ->
  inv lnt (new s p R d) /\ with_end p R (new s p R d) (tabulate p (round s p R t)).
Proof.
  intros (I1 & I2 & I3) WE L.
  assert (SU : forall l, (forall x, In x l -> In x (all p d)) -> Permutation l (s l) /\ sorted lt (s l)) by (intros l H; apply S1; intros x X; apply (Permutation_in _ I1), H, X).
  destruct (round_new s lt p R d t SU P) as (WE' & LN); [intros q Q; rewrite (I3 q Q); apply L, Q|exact WE|]. split; [|intros r Hr; rewrite tabulate_eq by exact Hr; apply WE', Hr]. split; [|split].
  - rewrite (round_keeps s lt p R d SU P). exact I1.
  - intros r H. apply (new_ok s lt p R d SU P r H).
  - intros r H. rewrite (LN r H). apply I3, H.
Qed.
Lemma first_of (lnt : nat -> nat) d t r : inv lnt d -> with_end p R d t -> (r < p)%nat -> firstn (lnt r) (t r) = d r.
Proof. intros (_ & _ & I3) WE H. destruct (WE r H) as (e & -> & _). rewrite <- (I3 r H). apply firstn_app_len. Qed.
Lemma loop_result fuel lnt : (forall r, (r < p)%nat -> (2 * R <= lnt r)%nat) -> (0 < R)%nat -> forall d t out, inv lnt d -> with_end p R d t ->
  sort_loop fuel s neq p R lnt t = Some out -> exists d', inv lnt d' /\ with_end p R d' out /\ sorted lt (all p d').
Proof.
  intros L RP. induction fuel as [|n IH]; intros d t out I WE H; [discriminate|]. cbn [sort_loop] in H.
  destruct (inv_step lnt d t I WE L) as (I' & WE'). destruct (existsb _ _) eqn:EX; [exact (IH _ _ _ I' WE' H)|]. injection H as <-.
  exists (new s p R d). split; [exact I'|]. split; [exact WE'|].
  assert (E : forall r, (r < p)%nat -> new s p R d r = d r).
  { intros r Q. assert (D : differs neq (firstn (lnt r) (tabulate p (round s p R t) r)) (firstn (lnt r) (t r)) = false).
    { destruct (differs neq _ _) eqn:D; [|reflexivity]. exfalso. apply diff_false_true. rewrite <- EX. apply existsb_exists. exists r. split; [apply in_seq; lia|exact D]. }
    rewrite (first_of lnt _ _ r I' WE' Q), (first_of lnt _ _ r I WE Q) in D. apply (differs_false neq); [|intros x y X Y; apply NQ|exact D].
    - destruct I' as (_ & _ & I3'). destruct I as (_ & _ & I3). rewrite I3', I3 by exact Q. reflexivity.
    - apply (Permutation_in _ (proj1 I')), all_in. eauto.
    - apply (Permutation_in _ (proj1 I)), all_in. eauto. }
  rewrite (all_ext p _ _ E). destruct I as (I1 & I2 & I3).
  assert (SU : forall l, (forall x, In x l -> In x (all p d)) -> Permutation l (s l) /\ sorted lt (s l)) by (intros l Hl; apply S1; intros x X; apply (Permutation_in _ I1), Hl, X).
  apply (stable_sorted s lt p R d); try assumption.
  - apply (weak_mono (fun x => In x u)); [intros x X; apply (Permutation_in _ I1), X|exact W].
  - intros r Q. rewrite (I3 r Q). apply L, Q.
Qed.
Hypothesis T : strict_total (fun x => In x u) lt.
Hypothesis NU : NoDup u.
Hypothesis NR : forall x, In x u -> neq x x = false.
Lemma loop_stops lnt : (forall r, (r < p)%nat -> (2 * R <= lnt r)%nat) -> forall n d t, (code (place lt u) (length u) (all p d) 0 < n)%nat -> inv lnt d -> with_end p R d t ->
  exists out, sort_loop n s neq p R lnt t = Some out.
Proof.
  intros L. induction n as [|n IH]; intros d t C I WE; [lia|]. cbn [sort_loop]. destruct (inv_step lnt d t I WE L) as (I' & WE').
  destruct (existsb _ _) eqn:EX; [|eauto]. apply (IH (new s p R d)); [|exact I'|exact WE'].
  assert (X : (code (place lt u) (length u) (all p (new s p R d)) 0 < code (place lt u) (length u) (all p d) 0)%nat); [|lia].
  pose proof I as (I1 & I2 & I3). pose proof I' as (I1' & _ & I3').
  apply code_smaller; [exact W|rewrite (Permutation_length I1), (Permutation_length I1'); reflexivity|intros x; apply Permutation_in, I1'|intros x; apply Permutation_in, I1|].
  destruct (progress s lt p R d) as [E|E]; try assumption.
  - apply (total_mono (fun x => In x u)); [intros x X; apply (Permutation_in _ I1), X|exact T].
  - apply (Permutation_NoDup (Permutation_sym I1) NU).
  - intros l Hl. apply S1. intros x X. apply (Permutation_in _ I1), Hl, X.
  - intros r Q. rewrite I3, I3' by exact Q. reflexivity.
  - exfalso. apply existsb_exists in EX. destruct EX as (r & Q & D). apply in_seq in Q.
    rewrite (first_of lnt _ _ r I' WE'), (first_of lnt _ _ r I WE), E in D by lia. rewrite differs_refl in D; [discriminate|].
    intros x X. apply NR. apply (Permutation_in _ I1), all_in. exists r. split; [lia|exact X].
Qed.
End Loop.

(** ---- the whole sort ---- *)
Lemma min_len_le {A} p (dat : nat -> list A) r : (r < p)%nat -> (min_len p dat <= length (dat r))%nat.
Proof.
  unfold min_len. set (f := fun m q => Nat.min m (length (dat q))).
  assert (X : forall l m, (fold_left f l m <= m)%nat /\ forall q, In q l -> (fold_left f l m <= length (dat q))%nat).
  { induction l as [|q l IH]; intros m; cbn [fold_left]; [split; [lia|intros ? []]|]. destruct (IH (f m q)) as (A1 & A2). assert (F1 : (f m q <= m)%nat) by apply Nat.le_min_l. assert (F2 : (f m q <= length (dat q))%nat) by apply Nat.le_min_r.
    split; [lia|]. intros q' [<-|Q]; [lia|apply A2, Q]. }
  intros H. destruct (X (seq 1 (p - 1)) (length (dat 0%nat))) as (A1 & A2). destruct r as [|r]; [exact A1|]. apply A2, in_seq. lia.
Qed.
Lemma std_len srt A lt l : std_sort srt -> strict_weak (fun x => In x l) lt -> length (srt A lt l) = length l.
Proof. intros H W. symmetry. apply Permutation_length, (H A lt l W). Qed.
Lemma region_le {A} p (dat : nat -> list A) r : (r < p)%nat -> (2 * regionSz p dat <= length (dat r))%nat.
Proof.
  intros H. pose proof (min_len_le p dat r H). unfold regionSz. pose proof (Nat.mul_div_le (min_len p dat) 4 ltac:(lia)). lia.
Qed.
Lemma min_len_ge {A} p (dat : nat -> list A) k : (0 < p)%nat -> (forall r, (r < p)%nat -> (k <= length (dat r))%nat) -> (k <= min_len p dat)%nat.
Proof.
  intros P H. unfold min_len. assert (X : forall l m, (k <= m)%nat -> (forall q, In q l -> (k <= length (dat q))%nat) -> (k <= fold_left (fun m q => Nat.min m (length (dat q))) l m)%nat).
  { induction l as [|q l IH]; intros m M B; [exact M|]. cbn [fold_left]. apply IH; [specialize (B q (or_introl eq_refl)); lia|intros; apply B; right; assumption]. }
  apply X; [apply H, P|]. intros q Q. apply in_seq in Q. apply H. lia.
Qed.
Lemma region_pos {A} p (dat : nat -> list A) : (0 < p)%nat -> (forall r, (r < p)%nat -> (4 <= length (dat r))%nat) -> (0 < regionSz p dat)%nat.
Proof. intros P H. unfold regionSz. apply Nat.div_str_pos. pose proof (min_len_ge p dat 4 P H). lia. Qed.

Lemma all_perm {A} k (d e : nat -> list A) : (forall r, (r < k)%nat -> Permutation (d r) (e r)) -> Permutation (all k d) (all k e).
Proof. induction k; intros H; [constructor|]. rewrite !all_S. apply Permutation_app; [apply IHk; intros; apply H; lia|apply H; lia]. Qed.
Section Whole.
Context {A : Type} (srt : sorter) (comp neq : A -> A -> bool) (zero : A) (p R : nat) (dat : nat -> list A).
Hypothesis SS : std_sort srt.
Hypothesis P : (0 < p)%nat.
Hypothesis W : strict_weak (fun x => In x (all p dat)) comp.
Hypothesis NQ : forall x y, In x (all p dat) -> In y (all p dat) -> neq x y = false -> x = y.
Hypothesis L : forall r, (r < p)%nat -> (2 * R <= length (dat r))%nat.
Lemma S1' : forall l, (forall x, In x l -> In x (all p dat)) -> Permutation l (srt A comp l) /\ sorted comp (srt A comp l).
Proof using SS W. intros l H. apply SS. apply (weak_mono (fun x => In x (all p dat))); assumption. Qed.
Lemma local_ok r : (r < p)%nat -> Permutation (dat r) (srt A comp (dat r)) /\ sorted comp (srt A comp (dat r)).
Proof using SS W. intros H. apply S1'. intros x X. apply all_in. eauto. Qed.
Lemma start_inv : inv comp p (all p dat) (fun r => length (dat r)) (fun r => srt A comp (dat r)).
Proof using SS W.
  split; [|split].
  - apply all_perm. intros r H. apply Permutation_sym, local_ok, H.
  - intros r H. apply local_ok, H.
  - intros r H. symmetry. apply Permutation_length, local_ok, H.
Qed.
Lemma start_end : with_end p R (fun r => srt A comp (dat r)) (fun r => srt A comp (dat r) ++ repeat zero (edge2 p R r)).
Proof using. intros r H. exists (repeat zero (edge2 p R r)). split; [reflexivity|apply repeat_length]. Qed.
Lemma nn_sort_result fuel out : (1 < p -> 0 < R)%nat -> nn_sort fuel srt comp neq zero p R dat = Some out ->
  Permutation (all p dat) (all p out) /\ (forall r, (r < p)%nat -> length (out r) = length (dat r)) /\ sorted comp (all p out).
Proof using SS P W NQ L.
  intros RP H. unfold nn_sort in H. destruct (Nat.ltb_spec 1 p) as [B|B].
  - destruct (sort_loop _ _ _ _ _ _ _) as [t'|] eqn:E; [|discriminate]. cbn [obind] in H. injection H as <-.
    destruct (loop_result (srt A comp) comp neq p R (all p dat) W S1' NQ P fuel (fun r => length (dat r)) L (RP B) _ _ _ start_inv start_end E) as (d' & I & WE & SO).
    assert (X : forall r, (r < p)%nat -> firstn (length (dat r)) (t' r) = d' r) by (intros r Hr; exact (first_of comp p R (all p dat) (fun r => length (dat r)) d' t' r I WE Hr)).
    rewrite (all_ext p _ _ X). destruct I as (I1 & _ & I3). split; [symmetry; exact I1|]. split; [|exact SO]. intros r Hr. rewrite (X r Hr). apply I3, Hr.
  - injection H as <-. assert (p = 1)%nat as P1 by lia.
    assert (X : forall r, (r < p)%nat -> firstn (length (dat r)) (srt A comp (dat r) ++ repeat zero (edge2 p R r)) = srt A comp (dat r)).
    { intros r Hr. rewrite (Permutation_length (proj1 (local_ok r Hr))). apply firstn_app_len. }
    rewrite (all_ext p _ _ X). destruct start_inv as (I1 & I2 & I3). split; [symmetry; exact I1|]. split; [intros r Hr; rewrite (X r Hr); apply I3, Hr|].
    rewrite P1. unfold all. cbn. rewrite app_nil_r. apply I2. lia.
Qed.
Lemma nn_sort_stops : strict_total (fun x => In x (all p dat)) comp -> NoDup (all p dat) -> (forall x, In x (all p dat) -> neq x x = false) ->
  exists n, forall fuel, (n <= fuel)%nat -> exists out, nn_sort fuel srt comp neq zero p R dat = Some out.
Proof using SS P W NQ L.
  intros T ND NR. exists (S (code (place comp (all p dat)) (length (all p dat)) (all p (fun r => srt A comp (dat r))) 0)). intros fuel F. unfold nn_sort. destruct (Nat.ltb 1 p); [|eexists; reflexivity].
  destruct (loop_stops (srt A comp) comp neq p R (all p dat) W S1' NQ P T ND NR (fun r => length (dat r)) L fuel _ _ F start_inv start_end) as (t' & ->).
  eexists; reflexivity.
Qed.
End Whole.

(** ---- the list of final places ---- *)
Lemma all_length {A} p (d : nat -> list A) : Z.of_nat (length (all p d)) = rank_off d p.
Proof.
  unfold rank_off. induction p as [|p IH]; [reflexivity|]. rewrite all_S, app_length, seq_S, fold_left_app. cbn [fold_left Nat.add]. rewrite <- IH. lia.
Qed.
Lemma all_map {A B} (f : A -> B) p (d : nat -> list A) : all p (fun r => map f (d r)) = map f (all p d).
Proof. induction p as [|p IH]; [reflexivity|]. rewrite !all_S, map_app, IH. reflexivity. Qed.
Lemma combine_app {A B} : forall (a c : list A) (b d : list B), length a = length b -> List.combine (a ++ c) (b ++ d) = List.combine a b ++ List.combine c d.
Proof. induction a as [|x a IH]; intros c [|y b] d H; try discriminate; [reflexivity|]. cbn. rewrite IH; [reflexivity|]. cbn in H. lia. Qed.
Definition plist (l : nat -> list Z) (r : nat) : list (Z * Z) := List.combine (l r) (map (fun i => rank_off l r + Z.of_nat i) (seq 0 (length (l r)))).
Lemma plist_all p l : all p (plist l) = List.combine (all p l) (map Z.of_nat (seq 0 (length (all p l)))).
Proof.
  induction p as [|p IH]; [reflexivity|]. rewrite !all_S, IH, app_length, seq_app, map_app, combine_app by (rewrite map_length, seq_length; reflexivity).
  f_equal. unfold plist. f_equal. rewrite <- all_length. cbn [Nat.add]. generalize (length (all p l)). generalize (length (l p)). clear. intros n m.
  transitivity (map Z.of_nat (map (fun i => (m + i)%nat) (seq 0 n))).
  - rewrite map_map. apply map_ext. intros. lia.
  - f_equal. clear. revert m. induction n as [|n IH]; intros m; [reflexivity|]. cbn [seq map]. f_equal; [lia|]. rewrite <- seq_shift, map_map, <- (IH (S m)). apply map_ext. intros. lia.
Qed.
Lemma pair_total (P : Z * Z -> Prop) : strict_total P pair_lt.
Proof.
  unfold pair_lt. split; [|split].
  - intros (a, b) _. cbn [fst snd]. rewrite !Z.ltb_irrefl. reflexivity.
  - intros (a, b) (c, d) (e, f) _ _ _. cbn [fst snd]. rewrite !orb_true_iff, !andb_true_iff, !negb_true_iff, !Z.ltb_lt, !Z.ltb_ge. lia.
  - intros (a, b) (c, d) _ _. cbn [fst snd]. rewrite !orb_false_iff, !andb_false_iff, !negb_false_iff, !Z.ltb_lt, !Z.ltb_ge. intros. f_equal; lia.
Qed.
Lemma pair_neq_eq a b : pair_neq a b = false -> a = b.
Proof. destruct a, b. unfold pair_neq. cbn [fst snd]. rewrite negb_false_iff, andb_true_iff, !Z.eqb_eq. intros (-> & ->). reflexivity. Qed.
Lemma min_len_same {A B} p (d : nat -> list A) (e : nat -> list B) : (0 < p)%nat -> (forall r, (r < p)%nat -> length (d r) = length (e r)) -> min_len p d = min_len p e.
Proof.
  intros P H. unfold min_len. rewrite (H 0%nat P). assert (X : forall l m, (forall r, In r l -> (r < p)%nat) -> fold_left (fun m r => Nat.min m (length (d r))) l m = fold_left (fun m r => Nat.min m (length (e r))) l m).
  { induction l as [|q l IH]; intros m B0; [reflexivity|]. cbn [fold_left]. rewrite H by (apply B0; left; reflexivity). apply IH. intros; apply B0; right; assumption. }
  apply X. intros r Q. apply in_seq in Q. lia.
Qed.
Lemma plist_len l r : length (plist l r) = length (l r).
Proof. unfold plist. rewrite combine_length, map_length, seq_length. lia. Qed.
Lemma plist_nodup p l : NoDup (all p (plist l)).
Proof.
  rewrite plist_all. generalize 0%nat. induction (all p l) as [|x a IH]; intros n; [constructor|]. cbn [length seq map List.combine]. constructor; [|apply IH].
  intros I. apply in_combine_r in I. apply in_map_iff in I. destruct I as (m & E & I). apply in_seq in I. lia.
Qed.
(** The sorted pairs behind [sort_list]. *)
Lemma sort_list_pairs fuel srt p l out : std_sort srt -> (0 < p)%nat -> (1 < p -> forall r, (r < p)%nat -> (4 <= length (l r))%nat)%nat -> sort_list fuel srt p l = Some out ->
  exists ps, all p out = map snd ps /\ (forall r, (r < p)%nat -> length (out r) = length (l r)) /\
    Permutation (all p (plist l)) ps /\ sorted pair_lt ps.
Proof.
  intros SS P L4 H. unfold sort_list in H. fold (plist l) in H. change (fun r => List.combine (l r) (map (fun i => rank_off l r + Z.of_nat i) (seq 0 (length (l r))))) with (plist l) in H.
  destruct (nn_sort _ _ _ _ _ _ _ _) as [o|] eqn:E; [|discriminate]. cbn [obind] in H. injection H as <-.
  destruct (nn_sort_result srt pair_lt pair_neq (0, 0) p (regionSz p l) (plist l) SS P) with (fuel := fuel) (out := o) as (R1 & R2 & R3).
  - apply total_weak, pair_total.
  - intros x y _ _. apply pair_neq_eq.
  - intros r Hr. rewrite plist_len. apply region_le, Hr.
  - intros B. apply region_pos; [exact P|]. apply L4, B.
  - exact E.
  - exists (all p o). split; [apply all_map|]. split; [|split; assumption]. intros r Hr. rewrite map_length, (R2 r Hr). apply plist_len.
Qed.
Lemma sort_list_stops srt p l : std_sort srt -> (0 < p)%nat -> exists n, forall fuel, (n <= fuel)%nat -> exists out, sort_list fuel srt p l = Some out.
Proof.
  intros SS P. destruct (nn_sort_stops srt pair_lt pair_neq (0, 0) p (regionSz p l) (plist l) SS P) as (n & N).
  - apply total_weak, pair_total.
  - intros x y _ _. apply pair_neq_eq.
  - intros r Hr. rewrite plist_len. apply region_le, Hr.
  - apply pair_total.
  - apply plist_nodup.
  - intros (a, b) _. unfold pair_neq. cbn. rewrite !Z.eqb_refl. reflexivity.
  - exists n. intros fuel F. destruct (N fuel F) as (o & E). unfold sort_list. change (fun r => List.combine (l r) (map (fun i => rank_off l r + Z.of_nat i) (seq 0 (length (l r))))) with (plist l). rewrite E. eexists; reflexivity.
Qed.
Lemma combine_nth_in {A} (a : list A) : forall n x z, In (x, z) (List.combine a (map Z.of_nat (seq n (length a)))) -> exists q, z = Z.of_nat (n + q) /\ nth_error a q = Some x.
Proof.
  induction a as [|y a IH]; intros n x z I; [destruct I|]. cbn [length seq map List.combine] in I. destruct I as [E|I].
  - injection E as -> <-. exists 0%nat. split; [f_equal; lia|reflexivity].
  - destruct (IH (S n) x z I) as (q & -> & Q). exists (S q). split; [f_equal; lia|exact Q].
Qed.
Lemma final_place fuel srt p l out inp : std_sort srt -> (0 < p)%nat -> (1 < p -> forall r, (r < p)%nat -> (4 <= length (l r))%nat)%nat -> sort_list fuel srt p l = Some out ->
  Permutation inp (all p l) -> StronglySorted Z.lt inp -> forall j v, nth_error inp j = Some v ->
  exists q, nth_error (all p out) j = Some (Z.of_nat q) /\ nth_error (all p l) q = Some v.
Proof.
  intros SS P L4 H PM SI j v J. destruct (sort_list_pairs fuel srt p l out SS P L4 H) as (ps & E & _ & PP & SP). rewrite plist_all in PP.
  assert (F : map fst (List.combine (all p l) (map Z.of_nat (seq 0 (length (all p l))))) = all p l).
  { clear. generalize 0%nat. induction (all p l) as [|x a IH]; intros n; [reflexivity|]. cbn [length seq map List.combine fst]. f_equal. apply IH. }
  assert (EQ : inp = map fst ps).
  { apply (sorted_unique (fun _ => True) Z.ltb).
    - split; [intros; apply Z.ltb_irrefl|]. split; [intros x y z _ _ _; rewrite !Z.ltb_lt; lia|intros x y _ _; rewrite !Z.ltb_ge; lia].
    - intros; exact I.
    - rewrite PM. rewrite <- F at 1. apply Permutation_map, PP.
    - clear -SI. induction SI as [|x l S IH F]; constructor; [exact IH|]. rewrite Forall_forall in *. intros y Y. specialize (F y Y). apply Z.ltb_ge. lia.
    - clear -SP. induction SP as [|(x, z) l S IH F]; [constructor|]. cbn [map fst]. constructor; [exact IH|]. rewrite Forall_forall in *. intros y Y.
      apply in_map_iff in Y. destruct Y as ((y', z') & <- & Y). specialize (F _ Y). unfold pair_lt in F. cbn [fst snd] in F |- *. apply orb_false_iff in F. apply F. }
  rewrite EQ in J.
  destruct (nth_error ps j) as [(v', z)|] eqn:EN; [|rewrite nth_error_map, EN in J; discriminate].
  rewrite nth_error_map, EN in J. cbn in J. injection J as ->. rewrite E, nth_error_map, EN. cbn [option_map snd].
  assert (I0 : In (v, z) (List.combine (all p l) (map Z.of_nat (seq 0 (length (all p l)))))) by (apply (Permutation_in _ (Permutation_sym PP)), (nth_error_In _ _ EN)).
  destruct (combine_nth_in _ _ _ _ I0) as (q & -> & Q). exists q. split; [reflexivity|exact Q].
Qed.

(** ---- local checks ---- *)
Lemma checkOrder_iff {A} (comp : A -> A -> bool) l : (forall x y z, In x l -> In y l -> In z l -> comp x y = true -> comp y z = true -> comp x z = true) ->
  checkOrder comp l = true <-> StronglySorted (fun a b => comp a b = true) l.
Proof.
  induction l as [|a l IH]; intros T; [split; [constructor|reflexivity]|]. destruct l as [|b l]; [split; [intros; constructor; constructor|reflexivity]|].
  assert (T' : forall x y z, In x (b :: l) -> In y (b :: l) -> In z (b :: l) -> comp x y = true -> comp y z = true -> comp x z = true) by (intros x y z X Y Z; apply T; right; assumption).
  specialize (IH T'). change (checkOrder comp (a :: b :: l)) with (if comp a b then checkOrder comp (b :: l) else false). split.
  - destruct (comp a b) eqn:E; [|discriminate]. intros H. apply IH in H. constructor; [exact H|]. constructor; [exact E|]. inversion H as [|? ? _ F]; subst. rewrite Forall_forall in *.
    intros y Y. apply (T a b y); [left; reflexivity|right; left; reflexivity|right; right; exact Y|exact E|apply F, Y].
  - intros H. inversion H as [|? ? S F]; subst. inversion F as [|? ? E _]; subst. rewrite E. apply IH, S.
Qed.
