(** Proofs about FilterModel: the loops for any arithmetic, and the exact arithmetic. *)
From Coq Require Import Reals Lra.
From Coquelicot Require Import Complex.
From Verif Require Import Base DataIOModel DataIOProofs FloatModel SignalModel SignalProofs FilterModel FilterSpec.
Import ListNotations.
Open Scope Z_scope.

(** ---- arrays as functions ---- *)
Definition tab {X} (n : Z) (g : Z -> X) : list X := map g (zr n).
Lemma tab_len {X} n (g : Z -> X) : length (tab n g) = Z.to_nat n.
Proof. unfold tab, zr. rewrite map_length. unfold zrange. rewrite map_length, seq_length. reflexivity. Qed.
Lemma tab_zlen {X} n (g : Z -> X) : 0 <= n -> zlen (tab n g) = n.
Proof. intros. unfold zlen. rewrite tab_len. lia. Qed.
Lemma zr_nth n i : (i < Z.to_nat n)%nat -> nth_error (zr n) i = Some (Z.of_nat i).
Proof.
  intros H. unfold zr, zrange. rewrite nth_error_map. rewrite nth_error_nth' with (d := O) by (rewrite seq_length; exact H). rewrite seq_nth by exact H. reflexivity.
Qed.
Lemma tab_nth {X} n (g : Z -> X) i : (i < Z.to_nat n)%nat -> nth_error (tab n g) i = Some (g (Z.of_nat i)).
Proof. intros H. unfold tab. rewrite nth_error_map, zr_nth by exact H. reflexivity. Qed.
Lemma tab_get {X} n (g : Z -> X) i : 0 <= i < n -> zget (tab n g) i = Done (g i).
Proof.
  intros H. unfold zget. destruct (Z.ltb_spec i 0); [lia|]. rewrite tab_nth by lia. rewrite Z2Nat.id by lia. reflexivity.
Qed.
Lemma tab_ext {X} n (g h : Z -> X) : (forall k, 0 <= k < n -> g k = h k) -> tab n g = tab n h.
Proof. intros H. unfold tab. apply map_ext_in. intros k K. apply in_zr in K. apply H. lia. Qed.
Lemma lset_nth {X} (s : list X) i x k : nth_error (lset s i x) k = if (k =? i)%nat then match nth_error s k with Some _ => Some x | None => None end else nth_error s k.
Proof.
  revert i k. induction s as [|y s IH]; intros i k.
  - destruct i, k; cbn; try reflexivity. destruct (_ =? _)%nat; reflexivity.
  - destruct i, k; cbn [lset nth_error Nat.eqb]; try reflexivity. apply IH.
Qed.
Lemma tab_set {X} n (g : Z -> X) i y : 0 <= i < n -> zset (tab n g) i y = Done (tab n (fun k => if k =? i then y else g k)).
Proof.
  intros H. unfold zset. rewrite tab_zlen by lia. destruct (Z.leb_spec 0 i); [|lia]. destruct (Z.ltb_spec i n); [|lia]. cbn [andb]. f_equal.
  apply nth_error_ext. intros k. rewrite lset_nth. destruct (Nat.ltb_spec k (Z.to_nat n)) as [L|L].
  - rewrite !tab_nth by exact L. destruct (Nat.eqb_spec k (Z.to_nat i)), (Z.eqb_spec (Z.of_nat k) i); try lia; reflexivity.
  - assert (N : forall f : Z -> X, nth_error (tab n f) k = None) by (intros f; apply nth_error_None; rewrite tab_len; lia). rewrite !N. destruct (_ =? _)%nat; reflexivity.
Qed.
Lemma tab_repeat {X} n (x : X) : repeat x (Z.to_nat n) = tab n (fun _ => x).
Proof.
  apply nth_error_ext. intros k. destruct (Nat.ltb_spec k (Z.to_nat n)) as [L|L].
  - rewrite tab_nth by exact L. apply nth_error_repeat. exact L.
  - transitivity (@None X); [|symmetry]; apply nth_error_None; [rewrite repeat_length|rewrite tab_len]; lia.
Qed.
Lemma tab_map {X Y} (f : X -> Y) n g : map f (tab n g) = tab n (fun k => f (g k)).
Proof. unfold tab. apply map_map. Qed.
Lemma tab_of {X} (d : X) (l : list X) : l = tab (zlen l) (fun k => nth (Z.to_nat k) l d).
Proof.
  apply nth_error_ext. intros k. unfold zlen. destruct (Nat.ltb_spec k (length l)) as [L|L].
  - rewrite tab_nth by lia. rewrite Nat2Z.id. apply nth_error_nth'. exact L.
  - transitivity (@None X); [|symmetry]; apply nth_error_None; [|rewrite tab_len]; lia.
Qed.
Lemma tab_rev {X} n (g : Z -> X) : rev (tab n g) = tab n (fun k => g (n - 1 - k)).
Proof.
  apply nth_error_ext. intros k. destruct (Nat.ltb_spec k (Z.to_nat n)) as [L|L].
  - rewrite tab_nth by exact L. destruct (tab n g) as [|d t] eqn:E; [pose proof (tab_len n g) as Q; rewrite E in Q; cbn [length] in Q; lia|]. rewrite <- E.
    rewrite nth_error_nth' with (d := d) by (rewrite rev_length, tab_len; exact L). rewrite rev_nth by (rewrite tab_len; exact L). rewrite tab_len.
    f_equal. apply nth_error_nth. rewrite tab_nth by lia. f_equal. f_equal. lia.
  - transitivity (@None X); [|symmetry]; apply nth_error_None; [rewrite rev_length|]; rewrite tab_len; lia.
Qed.
Lemma tab_app1 {X} n (g : Z -> X) : 0 <= n -> tab n g ++ [g n] = tab (n + 1) g.
Proof. intros H. unfold tab. rewrite zr_app by lia. rewrite map_app. f_equal. change (zr 1) with [0]. cbn [map]. rewrite Z.add_0_r. reflexivity. Qed.
(** A loop whose state after i rounds is [st i]. *)
Lemma for_states {S} (body : Z -> S -> outcome S) (st : Z -> S) n : 0 <= n -> (forall i, 0 <= i < n -> body i (st i) = Done (st (i + 1))) ->
  for_each body (zr n) (st 0) = Done (st n).
Proof.
  intros N. pattern n. apply natlike_ind; [..|exact N].
  - intros _. reflexivity.
  - intros k K IH H. unfold Z.succ in *. rewrite zr_app by lia. change (zr 1) with [0]. cbn [map]. rewrite for_each_app, IH by (intros; apply H; lia). cbn [obnd for_each]. rewrite Z.add_0_r, H by lia. reflexivity.
Qed.

(** ---- the loops of makeFilter, for any arithmetic ---- *)
Section Loops.
Context (A : arith).
Notation K := (cv A).
(** The coefficients of the product of the m + 1 first factors. *)
Fixpoint ecoef (c : Z -> K) (m : nat) (k : Z) : K :=
  match m with
  | O => if k =? 0 then c_neg A (c 0) else cz A 1
  | S m' => let i := Z.of_nat m in
      if k =? 0 then c_mul A (ecoef c m' 0) (c_neg A (c i))
      else if k =? i + 1 then cz A 1 else c_add A (c_mul A (ecoef c m' k) (c_neg A (c i))) (ecoef c m' (k - 1))
  end.
Definition upto (i : Z) (g : Z -> K) (k : Z) : K := if k <=? i then g k else cz A 0.
Lemma expand_inner_ok c n i g : 1 <= i < n -> let v := tab (n + 1) g in
  expand_inner A (tab n c) i v = Done (tab (n + 1) (fun k => if (1 <=? k) && (k <=? i) then c_add A (c_mul A (g k) (c_neg A (c i))) (g (k - 1)) else g k)).
Proof.
  intros I v. unfold expand_inner. set (st := fun j => tab (n + 1) (fun k => if (i - j + 1 <=? k) && (k <=? i) then c_add A (c_mul A (g k) (c_neg A (c i))) (g (k - 1)) else g k)).
  assert (S0 : v = st 0). { unfold v, st. apply tab_ext. intros k K. destruct (Z.leb_spec (i - 0 + 1) k), (Z.leb_spec k i); cbn [andb]; try reflexivity; lia. }
  rewrite S0, (for_states _ st); [|lia|].
  - f_equal. unfold st. apply tab_ext. intros k K. replace (i - i + 1) with 1 by lia. reflexivity.
  - intros j J. unfold st at 1. rewrite tab_get by lia. cbn [obnd]. rewrite tab_get by lia. cbn [obnd]. unfold st at 1. rewrite tab_get by lia. cbn [obnd]. unfold st at 1. rewrite tab_set by lia. f_equal. unfold st. apply tab_ext. intros k K.
    destruct (Z.eqb_spec k (i - j)) as [->|NE].
    + destruct (Z.leb_spec (i - j + 1) (i - j)); [lia|]. destruct (Z.leb_spec (i - j + 1) (i - j - 1)); [lia|]. destruct (Z.leb_spec (i - (j + 1) + 1) (i - j)); [|lia]. destruct (Z.leb_spec (i - j) i); [|lia]. reflexivity.
    + destruct (Z.leb_spec (i - j + 1) k), (Z.leb_spec (i - (j + 1) + 1) k), (Z.leb_spec k i); cbn [andb]; try reflexivity; lia.
Qed.
Lemma expand_outer_ok c n i : 1 <= i < n ->
  expand_outer A (tab n c) i (tab (n + 1) (upto i (ecoef c (Z.to_nat (i - 1))))) = Done (tab (n + 1) (upto (i + 1) (ecoef c (Z.to_nat i)))).
Proof.
  intros I. unfold expand_outer. rewrite tab_set by lia. cbn [obnd]. rewrite expand_inner_ok by lia. cbn [obnd]. rewrite tab_get by lia. cbn [obnd]. rewrite tab_get by lia. cbn [obnd]. rewrite tab_set by lia. f_equal.
  apply tab_ext. intros k K. set (e := ecoef c (Z.to_nat (i - 1))). replace (Z.to_nat i) with (S (Z.to_nat (i - 1))) by lia. unfold upto. cbn [ecoef]. fold e. replace (Z.of_nat (S (Z.to_nat (i - 1)))) with i by lia.
  destruct (Z.eqb_spec k 0) as [->|NZ].
  - change (0 =? i + 1) with (0 =? i + 1). destruct (Z.leb_spec 1 0); [lia|]. cbn [andb]. destruct (Z.eqb_spec 0 (i + 1)); [lia|]. destruct (Z.leb_spec 0 i); [|lia]. destruct (Z.leb_spec 0 (i + 1)); [|lia]. reflexivity.
  - destruct (Z.leb_spec 1 k); [|lia]. cbn [andb]. destruct (Z.eqb_spec k (i + 1)) as [->|NE].
    + destruct (Z.leb_spec (i + 1) i); [lia|]. destruct (Z.leb_spec (i + 1) (i + 1)); [|lia]. reflexivity.
    + destruct (Z.leb_spec k i).
      * destruct (Z.leb_spec k (i + 1)); [|lia]. destruct (Z.eqb_spec (k - 1) (i + 1)); [lia|]. destruct (Z.leb_spec (k - 1) i); [|lia]. reflexivity.
      * destruct (Z.leb_spec k (i + 1)); [lia|]. reflexivity.
Qed.
Lemma expand_vec_ok c n : 1 <= n -> expand_vec A (tab n c) n = Done (tab (n + 1) (ecoef c (Z.to_nat (n - 1)))).
Proof.
  intros N. unfold expand_vec. rewrite tab_get by lia. cbn [obnd]. rewrite tab_repeat, tab_set by lia. cbn [obnd]. rewrite tab_set by lia. cbn [obnd].
  set (st := fun i => tab (n + 1) (upto (i + 1) (ecoef c (Z.to_nat i)))).
  match goal with |- for_each _ _ ?v = _ => assert (S0 : v = st 0) end.
  { unfold st. apply tab_ext. intros k K. unfold upto. change (Z.to_nat 0) with O. cbn [ecoef]. destruct (Z.leb_spec k (0 + 1)); destruct (Z.eqb_spec k 1), (Z.eqb_spec k 0); try lia; reflexivity. }
  rewrite S0, (for_states _ st); [|lia|].
  - f_equal. unfold st. apply tab_ext. intros k K. unfold upto. destruct (Z.leb_spec k (n - 1 + 1)); [reflexivity|lia].
  - intros i I. unfold st. replace (Z.to_nat i) with (Z.to_nat (i + 1 - 1)) at 1 by (f_equal; lia). apply expand_outer_ok. lia.
Qed.
(** With no roots at all the first statement reads outside the array. *)
Lemma expand_vec_none : expand_vec A [] 0 = Undefined.
Proof. reflexivity. Qed.

Fixpoint cprodg (f : Z -> K) (n : nat) : K := match n with O => cz A 1 | S n => c_mul A (cprodg f n) (f (Z.of_nat n)) end.
Definition over (N : Z) (g h : Z -> K) (k : Z) : K := if k <? N then g k else h k.
Lemma over_self i g h : over i g h i = h i.
Proof. unfold over. rewrite Z.ltb_irrefl. reflexivity. Qed.
Lemma over_step m i (g h : Z -> K) y : y = g i -> tab m (fun k => if k =? i then y else over i g h k) = tab m (over (i + 1) g h).
Proof.
  intros ->. apply tab_ext. intros k _. unfold over. destruct (Z.eqb_spec k i) as [->|N]; [destruct (Z.ltb_spec i (i + 1)); [reflexivity|lia]|].
  destruct (Z.ltb_spec k i), (Z.ltb_spec k (i + 1)); try reflexivity; lia.
Qed.
Lemma lowpass_ok N m z p cf : 0 <= N <= m -> lowpass A N (tab m z) (tab m p) cf =
  Done (t_div A (t_pow A cf N) (c_re A (cprodg (fun i => c_sub A (cz A 4) (c_mul A (p i) (c_of A cf))) (Z.to_nat N))),
        tab m (over N (fun _ => cz A (-1)) z), tab m (over N (fun i => filDiv A (c_mul A (p i) (c_of A cf))) p)).
Proof.
  intros H. unfold lowpass.
  set (st := fun i => (cprodg (fun i => c_sub A (cz A 4) (c_mul A (p i) (c_of A cf))) (Z.to_nat i), tab m (over i (fun _ => cz A (-1)) z), tab m (over i (fun i => filDiv A (c_mul A (p i) (c_of A cf))) p))).
  match goal with |- obnd (for_each _ _ ?s) _ = _ => assert (S0 : s = st 0) end.
  { unfold st. cbn [Z.to_nat cprodg]. f_equal; [f_equal|]; apply tab_ext; intros k K; unfold over; destruct (Z.ltb_spec k 0); try reflexivity; lia. }
  rewrite S0, (for_states _ st); [reflexivity|lia|].
  intros i I. unfold st at 1. rewrite tab_get by lia. rewrite ?over_self. cbn [obnd]. rewrite tab_set by lia. cbn [obnd]. rewrite tab_set by lia. cbn [obnd]. f_equal.
  unfold st. replace (Z.to_nat (i + 1)) with (S (Z.to_nat i)) by lia. cbn [cprodg]. rewrite Z2Nat.id by lia. rewrite ?over_self.
  f_equal; [f_equal|]; apply over_step; reflexivity.
Qed.
Lemma highpass_ok N m z p cf : 0 <= N <= m -> highpass A N (tab m z) (tab m p) cf =
  Done (t_mul A (t_div A (tz A 1) (c_re A (cprodg (fun i => c_neg A (p i)) (Z.to_nat N)))) (t_div A (t_pow A (tz A 4) N) (c_re A (cprodg (fun i => c_sub A (cz A 4) (c_div A (c_of A cf) (p i))) (Z.to_nat N)))),
        tab m (over N (fun _ => cz A 1) z), tab m (over N (fun i => filDiv A (c_div A (c_of A cf) (p i))) p)).
Proof.
  intros H. unfold highpass.
  set (st := fun i => (cprodg (fun i => c_neg A (p i)) (Z.to_nat i), cprodg (fun i => c_sub A (cz A 4) (c_div A (c_of A cf) (p i))) (Z.to_nat i), tab m (over i (fun _ => cz A 1) z), tab m (over i (fun i => filDiv A (c_div A (c_of A cf) (p i))) p))).
  match goal with |- obnd (for_each _ _ ?s) _ = _ => assert (S0 : s = st 0) end.
  { unfold st. cbn [Z.to_nat cprodg]. f_equal; [f_equal|]; apply tab_ext; intros k K; unfold over; destruct (Z.ltb_spec k 0); try reflexivity; lia. }
  rewrite S0, (for_states _ st); [reflexivity|lia|].
  intros i I. unfold st at 1. rewrite tab_get by lia. rewrite ?over_self. cbn [obnd]. rewrite tab_set by lia. cbn [obnd]. rewrite tab_set by lia. cbn [obnd]. f_equal.
  unfold st. replace (Z.to_nat (i + 1)) with (S (Z.to_nat i)) by lia. cbn [cprodg]. rewrite Z2Nat.id by lia. rewrite ?over_self.
  f_equal; [f_equal|]; apply over_step; reflexivity.
Qed.
(** The two poles of a band filter made of one analogue pole. *)
Definition pairs (f : K -> K) (len : tv A) (N : Z) (p : Z -> K) (k : Z) : K :=
  if k <? N then let q := f (p k) in c_add A q (c_sqrt A (c_sub A (c_mul A q q) (c_of A len)))
  else let q := f (p (k - N)) in c_sub A q (c_sqrt A (c_sub A (c_mul A q q) (c_of A len))).
Lemma band_split_ok f zl zr' len N z p : 0 <= N ->
  band_split A f zl zr' len N (tab (2 * N) z) (tab (2 * N) p) = Done (tab (2 * N) (fun k => if k <? N then zl else zr'), tab (2 * N) (pairs f len N p)).
Proof.
  intros H. unfold band_split.
  set (st := fun i => (tab (2 * N) (fun k => if k <? i then zl else if (N <=? k) && (k <? N + i) then zr' else z k), tab (2 * N) (fun k => if (k <? i) || (N <=? k) && (k <? N + i) then pairs f len N p k else p k))).
  match goal with |- for_each _ _ ?s = _ => assert (S0 : s = st 0) end.
  { unfold st. f_equal; apply tab_ext; intros k K; destruct (Z.ltb_spec k 0), (Z.leb_spec N k), (Z.ltb_spec k (N + 0)); cbn [andb orb]; try reflexivity; lia. }
  rewrite S0, (for_states _ st); [|lia|].
  - f_equal. unfold st. f_equal; apply tab_ext; intros k K; destruct (Z.ltb_spec k N), (Z.leb_spec N k), (Z.ltb_spec k (N + N)); cbn [andb orb]; try reflexivity; lia.
  - intros i I. unfold st at 1. rewrite tab_get by lia. cbn [obnd]. destruct (Z.ltb_spec i i); [lia|]. destruct (Z.leb_spec N i); [lia|]. cbn [andb orb].
    do 5 (rewrite tab_set by lia; cbn [obnd]). f_equal. unfold st. f_equal; apply tab_ext; intros k K.
    + destruct (Z.eqb_spec k (N + i)), (Z.eqb_spec k i), (Z.ltb_spec k i), (Z.ltb_spec k (i + 1)), (Z.leb_spec N k), (Z.ltb_spec k (N + i)), (Z.ltb_spec k (N + (i + 1))); cbn [andb]; try lia; reflexivity.
    + destruct (Z.eqb_spec k (N + i)) as [->|].
      { destruct (Z.eqb_spec (N + i) i); [lia|]. destruct (Z.leb_spec N (N + i)); [|lia]. destruct (Z.ltb_spec (N + i) (N + (i + 1))); [|lia]. cbn [andb]. rewrite Bool.orb_true_r. unfold pairs. destruct (Z.ltb_spec (N + i) N); [lia|]. replace (N + i - N) with i by lia. reflexivity. }
      destruct (Z.eqb_spec k i) as [->|].
      { destruct (Z.ltb_spec i (i + 1)); [|lia]. cbn [orb]. unfold pairs. destruct (Z.ltb_spec i N); [|lia]. reflexivity. }
      destruct (Z.ltb_spec k i), (Z.ltb_spec k (i + 1)), (Z.leb_spec N k), (Z.ltb_spec k (N + i)), (Z.ltb_spec k (N + (i + 1))); cbn [andb orb]; try lia; reflexivity.
Qed.
Lemma bandpass_ok N z p cf1 cf2 : 0 <= N -> let P := pairs (fun pi => c_mul A pi (c_of A (t_div A (t_sub A cf2 cf1) (tz A 2)))) (t_mul A cf1 cf2) N p in
  let pp := cprodg (fun i => c_sub A (cz A 4) (P i)) (Z.to_nat (2 * N)) in
  bandpass A N (tab (2 * N) z) (tab (2 * N) p) cf1 cf2 =
  Done (t_div A (t_mul A (t_mul A (t_pow A (t_sub A cf2 cf1) N) (t_pow A (tz A 4) N)) (c_re A pp)) (c_norm A pp),
        tab (2 * N) (fun k => if k <? N then cz A 1 else cz A (-1)), tab (2 * N) (fun i => filDiv A (P i))).
Proof.
  intros H P pp. unfold bandpass. rewrite band_split_ok by exact H. cbn [obnd]. fold P.
  set (st := fun i => (cprodg (fun i => c_sub A (cz A 4) (P i)) (Z.to_nat i), tab (2 * N) (over i (fun i => filDiv A (P i)) P))).
  match goal with |- obnd (for_each _ _ ?s) _ = _ => assert (S0 : s = st 0) end.
  { unfold st. cbn [Z.to_nat cprodg]. f_equal. apply tab_ext; intros k K; unfold over; destruct (Z.ltb_spec k 0); try reflexivity; lia. }
  rewrite S0, (for_states _ st); [|lia|].
  - unfold st. cbn [obnd]. fold pp. f_equal. f_equal. apply tab_ext. intros k K. unfold over. destruct (Z.ltb_spec k (2 * N)); [reflexivity|lia].
  - intros i I. unfold st at 1. rewrite tab_get by lia. rewrite ?over_self. cbn [obnd]. rewrite tab_set by lia. cbn [obnd]. f_equal.
    unfold st. replace (Z.to_nat (i + 1)) with (S (Z.to_nat i)) by lia. cbn [cprodg]. rewrite Z2Nat.id by lia. rewrite ?over_self.
    f_equal. apply over_step; reflexivity.
Qed.
Lemma bandstop_ok N z p cf1 cf2 : 0 <= N -> let P := pairs (fun pi => c_div A (c_of A (t_div A (t_sub A cf2 cf1) (tz A 2))) pi) (t_mul A cf1 cf2) N p in
  let zi := c_mul A (c_I A) (c_of A (t_sqrt A (t_mul A cf1 cf2))) in let Q := fun k => if k <? N then zi else c_neg A zi in
  let pp := cprodg (fun i => c_sub A (cz A 4) (P i)) (Z.to_nat (N * 2)) in let zp := cprodg (fun i => c_sub A (cz A 4) (Q i)) (Z.to_nat (N * 2)) in
  bandstop A N (tab (2 * N) z) (tab (2 * N) p) cf1 cf2 =
  Done (t_div A (t_add A (t_mul A (c_re A zp) (c_re A pp)) (t_mul A (c_im A zp) (c_im A pp))) (c_norm A pp),
        tab (2 * N) (fun i => filDiv A (Q i)), tab (2 * N) (fun i => filDiv A (P i))).
Proof.
  intros H P zi Q pp zp. unfold bandstop. rewrite band_split_ok by exact H. cbn [obnd]. fold P. fold zi. fold Q.
  set (st := fun i => (cprodg (fun i => c_sub A (cz A 4) (Q i)) (Z.to_nat i), cprodg (fun i => c_sub A (cz A 4) (P i)) (Z.to_nat i), tab (2 * N) (over i (fun i => filDiv A (Q i)) Q), tab (2 * N) (over i (fun i => filDiv A (P i)) P))).
  match goal with |- obnd (for_each _ _ ?s) _ = _ => assert (S0 : s = st 0) end.
  { unfold st. cbn [Z.to_nat cprodg]. f_equal; [f_equal|]; apply tab_ext; intros k K; unfold over; destruct (Z.ltb_spec k 0); try reflexivity; lia. }
  rewrite S0, (for_states _ st); [|lia|].
  - unfold st. cbn [obnd]. fold pp. fold zp. f_equal. f_equal; [f_equal|]; apply tab_ext; intros k K; unfold over; destruct (Z.ltb_spec k (N * 2)); try reflexivity; lia.
  - intros i I. unfold st at 1. rewrite tab_get by lia. rewrite ?over_self. cbn [obnd]. rewrite tab_set by lia. cbn [obnd]. rewrite tab_get by lia. rewrite ?over_self. cbn [obnd]. rewrite tab_set by lia. cbn [obnd]. f_equal.
    unfold st. replace (Z.to_nat (i + 1)) with (S (Z.to_nat i)) by lia. cbn [cprodg]. rewrite Z2Nat.id by lia.
    f_equal; [f_equal|]; apply over_step; reflexivity.
Qed.
Lemma swap_ok {X} (d : Z -> X) n : 0 <= n ->
  for_each (fun i d => obnd (zget d i) (fun x => obnd (zget d (n - i)) (fun y => obnd (zset d i y) (fun d => zset d (n - i) x)))) (zr ((n + 1) / 2)) (tab (n + 1) d) = Done (tab (n + 1) (fun k => d (n - k))).
Proof.
  intros N. assert (D := Z.div_mod (n + 1) 2 ltac:(lia)). assert (M := Z.mod_pos_bound (n + 1) 2 ltac:(lia)). set (h := (n + 1) / 2) in *. clearbody h.
  set (st := fun i => tab (n + 1) (fun k => if (k <? i) || (n - i <? k) then d (n - k) else d k)).
  assert (S0 : tab (n + 1) d = st 0). { unfold st. apply tab_ext. intros k K. destruct (Z.ltb_spec k 0), (Z.ltb_spec (n - 0) k); cbn [orb]; try reflexivity; lia. }
  rewrite S0, (for_states _ st); [|lia|].
  - f_equal. unfold st. apply tab_ext. intros k K. destruct (Z.ltb_spec k h), (Z.ltb_spec (n - h) k); cbn [orb]; try reflexivity. f_equal. lia.
  - intros i I. unfold st at 1. rewrite tab_get by lia. cbn [obnd]. unfold st at 1. rewrite tab_get by lia. cbn [obnd]. unfold st at 1. rewrite tab_set by lia. cbn [obnd]. rewrite tab_set by lia. f_equal. unfold st. apply tab_ext. intros k K.
    destruct (Z.ltb_spec i i); [lia|]. destruct (Z.ltb_spec (n - i) i); [lia|]. destruct (Z.ltb_spec (n - i) (n - i)); [lia|]. destruct (Z.ltb_spec (n - i) i); [lia|]. cbn [orb].
    destruct (Z.eqb_spec k (n - i)) as [E1|E1]; destruct (Z.eqb_spec k i) as [E2|E2]; destruct (Z.ltb_spec k i), (Z.ltb_spec k (i + 1)), (Z.ltb_spec (n - i) k), (Z.ltb_spec (n - (i + 1)) k); cbn [orb]; try lia; try reflexivity; f_equal; lia.
Qed.
Lemma fill_ok {X} (x0 : X) f N m : 0 <= N <= m -> for_each (fun i p => zset p i (f i)) (zr N) (repeat x0 (Z.to_nat m)) = Done (tab m (fun k => if k <? N then f k else x0)).
Proof.
  intros H. rewrite tab_repeat. set (st := fun i => tab m (fun k => if k <? i then f k else x0)).
  assert (S0 : tab m (fun _ => x0) = st 0). { apply tab_ext. intros k K. destruct (Z.ltb_spec k 0); [lia|reflexivity]. }
  rewrite S0, (for_states _ st); [reflexivity|lia|]. intros i I. unfold st. rewrite tab_set by lia. f_equal. apply tab_ext. intros k K.
  destruct (Z.eqb_spec k i) as [->|]; [destruct (Z.ltb_spec i (i + 1)); [reflexivity|lia]|]. destruct (Z.ltb_spec k i), (Z.ltb_spec k (i + 1)); try reflexivity; lia.
Qed.
End Loops.
