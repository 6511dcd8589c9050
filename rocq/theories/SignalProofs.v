(** Loops over arrays. *)
From Coq Require Import Reals Lra Lia.
From Flocq Require Import Core IEEE754.BinarySingleNaN.
From Verif Require Import Base DecompProofs DataIOModel DataIOProofs FloatModel FloatProofs SignalModel SignalSpec.
Import ListNotations.
Open Scope Z_scope.

Lemma nth_error_ext {A} : forall (a b : list A), (forall i, nth_error a i = nth_error b i) -> a = b.
Proof.
  induction a as [|x a IH]; intros [|y b] H; [reflexivity|specialize (H 0%nat); discriminate H|specialize (H 0%nat); discriminate H|].
  f_equal; [specialize (H 0%nat); injection H as ->; reflexivity|]. apply IH. intros i. apply (H (S i)).
Qed.
Lemma imap_nth {A B} (f : Z -> A -> B) : forall s k i, nth_error (imap f k s) i = option_map (f (k + Z.of_nat i)) (nth_error s i).
Proof.
  induction s as [|x s IH]; intros k [|i]; try reflexivity.
  - cbn [imap nth_error option_map]. f_equal. f_equal. lia.
  - cbn [imap nth_error]. rewrite IH. destruct (nth_error s i); [|reflexivity]. cbn [option_map]. f_equal. f_equal. lia.
Qed.
Lemma imap_length {A B} (f : Z -> A -> B) : forall s k, length (imap f k s) = length s.
Proof. induction s as [|x s IH]; intros k; [reflexivity|]. cbn [imap length]. rewrite IH. reflexivity. Qed.
Lemma imap_zlen {A B} (f : Z -> A -> B) s k : zlen (imap f k s) = zlen s.
Proof. unfold zlen. rewrite imap_length. reflexivity. Qed.
Lemma imap_ext {A B} (f g : Z -> A -> B) : forall s k, (forall i x, k <= i < k + zlen s -> f i x = g i x) -> imap f k s = imap g k s.
Proof.
  induction s as [|x s IH]; intros k H; [reflexivity|]. cbn [imap]. unfold zlen in *. cbn [length] in H. f_equal; [apply H; lia|]. apply IH. intros i y I. apply H. lia.
Qed.
Lemma imap_id {A} (f : Z -> A -> A) : forall s k, (forall i x, k <= i < k + zlen s -> f i x = x) -> imap f k s = s.
Proof.
  induction s as [|x s IH]; intros k H; [reflexivity|]. cbn [imap]. unfold zlen in *. cbn [length] in H. f_equal; [apply H; lia|]. apply IH. intros i y I. apply H. lia.
Qed.
Lemma imap_imap {A B C} (f : Z -> A -> B) (g : Z -> B -> C) : forall s k, imap g k (imap f k s) = imap (fun i x => g i (f i x)) k s.
Proof. induction s as [|x s IH]; intros k; [reflexivity|]. cbn [imap]. rewrite IH. reflexivity. Qed.
Lemma lset_nth {A} : forall (s : list A) i x j, nth_error (lset s i x) j = if (i =? j)%nat then option_map (fun _ => x) (nth_error s j) else nth_error s j.
Proof.
  induction s as [|y s IH]; intros [|i] x [|j]; try reflexivity.
  - cbn [lset nth_error]. destruct (S i =? S j)%nat; reflexivity.
  - cbn [lset nth_error Nat.eqb]. apply IH.
Qed.
Lemma lset_length {A} : forall (s : list A) i x, length (lset s i x) = length s.
Proof. induction s as [|y s IH]; intros [|i] x; try reflexivity. cbn [lset length]. rewrite IH. reflexivity. Qed.
Lemma zlen_nonneg {A} (s : list A) : 0 <= zlen s. Proof. unfold zlen. lia. Qed.
Lemma zget_ok {A} (s : list A) i : 0 <= i < zlen s -> exists x, zget s i = Done x /\ nth_error s (Z.to_nat i) = Some x.
Proof.
  intros H. unfold zget. destruct (Z.ltb_spec i 0); [lia|]. destruct (nth_error s (Z.to_nat i)) as [x|] eqn:E; [eauto|]. apply nth_error_None in E. unfold zlen in H. lia.
Qed.
Lemma zset_ok {A} (s : list A) i x : 0 <= i < zlen s -> zset s i x = Done (lset s (Z.to_nat i) x).
Proof. intros H. unfold zset. destruct (Z.leb_spec 0 i), (Z.ltb_spec i (zlen s)); try lia. reflexivity. Qed.
Lemma zset_imap {A} (s : list A) i x : 0 <= i < zlen s -> zset s i x = Done (imap (fun k v => if k =? i then x else v) 0 s).
Proof.
  intros H. rewrite zset_ok by exact H. f_equal. apply nth_error_ext. intros j. rewrite lset_nth, imap_nth, Z.add_0_l. destruct (Nat.eqb_spec (Z.to_nat i) j), (Z.eqb_spec (Z.of_nat j) i); try lia; destruct (nth_error s j); reflexivity.
Qed.
Lemma scale_imap s i y : 0 <= i < zlen s -> scale_at s i y = Done (imap (fun k v => if k =? i then fmul v y else v) 0 s).
Proof.
  intros H. unfold scale_at. destruct (zget_ok s i H) as (x & -> & E). cbn [obnd]. rewrite zset_imap by exact H. f_equal. apply nth_error_ext. intros j. rewrite !imap_nth, Z.add_0_l. destruct (Z.eqb_spec (Z.of_nat j) i) as [<-|]; [|reflexivity]. rewrite Nat2Z.id in E. rewrite E. reflexivity.
Qed.
Lemma for_each_app {S} (body : Z -> S -> outcome S) : forall a b s, for_each body (a ++ b) s = obnd (for_each body a s) (for_each body b).
Proof. induction a as [|j a IH]; intros b s; [reflexivity|]. cbn [app for_each]. destruct (body j s); [|reflexivity|reflexivity]. cbn [obnd]. apply IH. Qed.
Lemma for_each_ext {S} (P : S -> Prop) (f g : Z -> S -> outcome S) : forall js s, P s -> (forall j s, In j js -> P s -> f j s = g j s /\ forall s', g j s = Done s' -> P s') -> for_each f js s = for_each g js s.
Proof.
  induction js as [|j js IH]; intros s PS H; [reflexivity|]. cbn [for_each]. destruct (H j s (or_introl eq_refl) PS) as (-> & K). destruct (g j s) as [s'| |]; [|reflexivity|reflexivity]. cbn [obnd]. apply IH; [apply K; reflexivity|]. intros j' s'' I. apply H. right. exact I.
Qed.
Lemma zr_S n : zr (Z.of_nat (S n)) = zr (Z.of_nat n) ++ [Z.of_nat n].
Proof. unfold zr, zrange. rewrite !Nat2Z.id, seq_S, map_app. reflexivity. Qed.
Lemma zr_cons n : zr (Z.of_nat (S n)) = 0 :: map (Z.add 1) (zr (Z.of_nat n)).
Proof.
  unfold zr, zrange. rewrite !Nat2Z.id. cbn [seq map]. f_equal. rewrite <- seq_shift, !map_map. apply map_ext. intros a. lia.
Qed.
(** A loop that scales elements base, base+1, ... *)
Lemma scale_loop (h : Z -> F) (base : Z) : forall n s, 0 <= base -> base + Z.of_nat n <= zlen s ->
  for_each (fun j s => scale_at s (base + j) (h j)) (zr (Z.of_nat n)) s = Done (imap (fun i v => if (base <=? i) && (i <? base + Z.of_nat n) then fmul v (h (i - base)) else v) 0 s).
Proof.
  induction n as [|n IH]; intros s B L.
  - cbn [zr for_each]. change (zr (Z.of_nat 0)) with (@nil Z). cbn [for_each]. f_equal. symmetry. apply imap_id. intros i x I. destruct (Z.leb_spec base i), (Z.ltb_spec i (base + Z.of_nat 0)); cbn [andb]; try reflexivity. lia.
  - rewrite zr_S, for_each_app, IH by lia. cbn [obnd for_each]. rewrite scale_imap by (rewrite imap_zlen; lia). cbn [obnd for_each]. f_equal. rewrite imap_imap. apply imap_ext. intros i x I.
    destruct (Z.eqb_spec i (base + Z.of_nat n)) as [->|N].
    + destruct (Z.leb_spec base (base + Z.of_nat n)), (Z.ltb_spec (base + Z.of_nat n) (base + Z.of_nat n)), (Z.ltb_spec (base + Z.of_nat n) (base + Z.of_nat (S n))); cbn [andb]; try lia. f_equal. f_equal. lia.
    + destruct (Z.leb_spec base i), (Z.ltb_spec i (base + Z.of_nat n)), (Z.ltb_spec i (base + Z.of_nat (S n))); cbn [andb]; try lia; reflexivity.
Qed.
Lemma scale_len s i y s' : scale_at s i y = Done s' -> zlen s' = zlen s.
Proof.
  unfold scale_at, zset. destruct (zget s i); cbn [obnd]; try discriminate. destruct (_ && _); intros H; [|discriminate H]. injection H as <-. unfold zlen. rewrite lset_length. reflexivity.
Qed.
Lemma in_zr' n i : In i (zr n) <-> 0 <= i < n.
Proof.
  unfold zr, zrange. rewrite in_map_iff. split; [intros (k & <- & K); apply in_seq in K; lia|]. intros H. exists (Z.to_nat i). split; [lia|apply in_seq; lia].
Qed.
(** The loops of taper. *)
Lemma taper_loops_spec fn s l r : 0 <= l <= zlen s -> 0 <= r <= zlen s -> zlen s < two64 - 1 -> taper_loops fn s l r = Done (imap (tapered fn (zlen s) l r) 0 s).
Proof.
  intros L R M. unfold taper_loops.
  rewrite (for_each_ext (fun s' => zlen s' = zlen s) _ (fun j s => scale_at s (0 + j) (fn (f_of_Z (j + 1)) (f_of_Z l)))); [|reflexivity|].
  2:{ intros j s' J P. apply in_zr' in J. rewrite u64_small by (unfold in_u64; lia). split; [rewrite Z.add_0_l; reflexivity|]. intros s'' E. rewrite (scale_len _ _ _ _ E). exact P. }
  rewrite <- (Z2Nat.id l) at 1 by lia. rewrite (scale_loop (fun j => fn (f_of_Z (j + 1)) (f_of_Z l))) by lia. cbn [obnd]. rewrite Z2Nat.id by lia.
  set (s1 := imap _ 0 s). assert (Z1 : zlen s1 = zlen s) by apply imap_zlen.
  rewrite (for_each_ext (fun s' => zlen s' = zlen s) _ (fun j s' => scale_at s' ((zlen s - r) + j) (fn (f_of_Z (r - j)) (f_of_Z r)))); [|exact Z1|].
  2:{ intros j s' J P. apply in_zr' in J. rewrite P. rewrite (u64_small (zlen s - r)) by (unfold in_u64; lia). rewrite u64_small by (unfold in_u64; lia). split; [reflexivity|]. intros s'' E. rewrite (scale_len _ _ _ _ E). exact P. }
  rewrite <- (Z2Nat.id r) at 1 by lia. rewrite (scale_loop (fun j => fn (f_of_Z (r - j)) (f_of_Z r))) by lia. rewrite Z2Nat.id by lia. f_equal. unfold s1. rewrite imap_imap. apply imap_ext. intros i x I. unfold tapered. cbv zeta.
  rewrite Z.add_0_l. replace (i - 0) with i by lia. replace (zlen s - r + r) with (zlen s) by lia. replace (r - (i - (zlen s - r))) with (zlen s - i) by lia.
  destruct (Z.leb_spec 0 i), (Z.ltb_spec i (zlen s)); try lia. cbn [andb]. rewrite Bool.andb_true_r. reflexivity.
Qed.
Lemma leading_zeros_app z x t : Forall muted z -> live x -> leading_zeros (z ++ x :: t) = length z.
Proof. intros Z X. induction Z as [|y z Y Z IH]; cbn [app leading_zeros length]; [rewrite X; reflexivity|]. rewrite Y, IH. reflexivity. Qed.
Lemma leading_zeros_all z : Forall muted z -> leading_zeros z = length z.
Proof. intros Z. induction Z as [|y z Y Z IH]; [reflexivity|]. cbn [leading_zeros length]. rewrite Y, IH. reflexivity. Qed.

(** ---- AGC ---- *)
Lemma agc_steps_spec n h : 0 <= h -> 2 * h + 1 < n -> n < two64 ->
  agc_steps n h (2 * h + 1) = map (fun j => let a := Z.max 0 (j - h) in (j, (a, Z.min n (j + h + 1) - a, j - a))) (zr n).
Proof.
  assert (P : forall a b c d a' b' c' d' : Z, a = a' -> b = b' -> c = c' -> d = d' -> (a, (b, c, d)) = (a', (b', c', d'))) by (intros; subst; reflexivity).
  intros H N M. unfold agc_steps. rewrite (u64_small (n - h)) by (unfold in_u64; lia).
  assert (E : zr n = zr h ++ map (Z.add h) (zr (n - h - h) ++ map (Z.add (n - h - h)) (zr h))) by (rewrite <- zr_app, <- zr_app by lia; f_equal; lia). rewrite E. rewrite !map_app, !map_map. f_equal; [|f_equal].
  - apply map_ext_in. intros j J. apply in_zr' in J. cbv zeta. replace (Z.max 0 (j - h)) with 0 by lia. replace (Z.min n (j + h + 1)) with (j + h + 1) by lia. apply P; lia.
  - apply map_ext_in. intros k K. apply in_zr' in K. cbv zeta. replace (Z.max 0 (h + k - h)) with k by lia. replace (Z.min n (h + k + h + 1)) with (h + k + h + 1) by lia. apply P; lia.
  - replace (n - (n - h)) with h by lia. apply map_ext_in. intros k K. apply in_zr' in K. cbv zeta. rewrite u64_small by (unfold in_u64; lia). replace (Z.max 0 (h + (n - h - h + k) - h)) with (n - h - h + k) by lia. replace (Z.min n (h + (n - h - h + k) + h + 1)) with n by lia. apply P; lia.
Qed.
Lemma slice_filter {A} : forall (s : list A) k a b, a <= b -> k <= b ->
  map snd (filter (fun ix => (a <=? fst ix) && (fst ix <? b)) (combine (map (Z.add k) (zr (zlen s))) s)) = firstn (Z.to_nat (b - Z.max a k)) (skipn (Z.to_nat (a - k)) s).
Proof.
  induction s as [|x s IH]; intros k a b AB KB.
  - rewrite skipn_nil, firstn_nil. unfold zlen. cbn. reflexivity.
  - unfold zlen. cbn [length]. rewrite zr_cons. cbn [map combine filter fst]. rewrite map_map. rewrite (map_ext (fun x0 => k + (1 + x0)) (Z.add (k + 1))) by (intros; lia). fold (zlen s).
    replace (k + 0) with k by lia. destruct (Z.leb_spec a k) as [C1|C1].
    + destruct (Z.ltb_spec k b) as [C2|C2]; cbn [andb].
      * cbn [map snd]. rewrite IH by lia. replace (Z.to_nat (a - k)) with 0%nat by lia. replace (Z.to_nat (a - (k + 1))) with 0%nat by lia. cbn [skipn]. replace (Z.to_nat (b - Z.max a k)) with (S (Z.to_nat (b - Z.max a (k + 1)))) by lia. reflexivity.
      * replace (Z.to_nat (b - Z.max a k)) with 0%nat by lia. cbn [firstn]. clear IH.
        assert (K : k = b) by lia. subst k. assert (H : forall i, In i (zr (zlen s)) -> 0 <= i) by (intros i I; apply in_zr' in I; lia). revert H. generalize (zr (zlen s)). intros l. revert s. induction l as [|i l IH]; intros [|y s] H; try reflexivity. cbn [map combine filter fst]. pose proof (H i (or_introl eq_refl)). destruct (Z.leb_spec a (b + 1 + i)), (Z.ltb_spec (b + 1 + i) b); cbn [andb]; try lia. apply IH. intros i' I'. apply H. right. exact I'.
    + cbn [andb]. rewrite IH by lia. replace (Z.to_nat (a - k)) with (S (Z.to_nat (a - (k + 1)))) by lia. cbn [skipn]. f_equal. lia.
Qed.

Lemma around_slice {A} h j (s : list A) : 0 <= h -> 0 <= j < zlen s ->
  around h j s = firstn (Z.to_nat (Z.min (zlen s) (j + h + 1) - Z.max 0 (j - h))) (skipn (Z.to_nat (Z.max 0 (j - h))) s).
Proof.
  intros H J. unfold around. fold (zlen s). pose proof (slice_filter s 0 (Z.max 0 (j - h)) (Z.min (zlen s) (j + h + 1)) ltac:(lia) ltac:(lia)) as E.
  replace (Z.max (Z.max 0 (j - h)) 0) with (Z.max 0 (j - h)) in E by lia. rewrite Z.sub_0_r in E. rewrite <- E. rewrite (map_ext (Z.add 0) (fun x => x)) by (intros; lia). rewrite map_id. f_equal. apply filter_ext_in. intros (i, x) I. apply in_combine_l in I. apply in_zr' in I. cbn [fst].
  destruct (Z.leb_spec (Z.abs (i - j)) h), (Z.leb_spec (Z.max 0 (j - h)) i), (Z.ltb_spec i (Z.min (zlen s) (j + h + 1))); cbn [andb]; try reflexivity; lia.
Qed.
Lemma agc_gains_spec g s target (st : Z -> Z * Z * Z) (G : Z -> F) : forall n gain,
  Z.of_nat n <= zlen gain ->
  (forall j, 0 <= j < Z.of_nat n -> exists w, window s (fst (fst (st j))) (snd (fst (st j))) = Done w /\ g w target (snd (st j)) = Done (G j)) ->
  agc_gains g s target (map (fun j => (j, st j)) (zr (Z.of_nat n))) gain = Done (imap (fun i v => if i <? Z.of_nat n then G i else v) 0 gain).
Proof.
  assert (APP : forall a b gain, agc_gains g s target (a ++ b) gain = obnd (agc_gains g s target a gain) (agc_gains g s target b)).
  { induction a as [|(j, ((x, w), c)) a IH]; intros b gain; [reflexivity|]. cbn [app agc_gains]. destruct (window s x w) as [win| |]; cbn [obnd]; try reflexivity. destruct (g win target c) as [y| |]; cbn [obnd]; try reflexivity. destruct (zset gain j y) as [z| |]; cbn [obnd]; try reflexivity. apply IH. }
  induction n as [|n IH]; intros gain L H.
  - cbn [zr map agc_gains]. change (zr (Z.of_nat 0)) with (@nil Z). cbn [map agc_gains]. f_equal. symmetry. apply imap_id. intros i x I. destruct (Z.ltb_spec i (Z.of_nat 0)); [lia|reflexivity].
  - rewrite zr_S, map_app, APP, IH by (try lia; intros j J; apply H; lia). cbn [obnd map agc_gains]. destruct (H (Z.of_nat n) ltac:(lia)) as (w & W & E). destruct (st (Z.of_nat n)) as ((x, y), c). cbn [fst snd] in W, E. cbn [agc_gains]. rewrite W. cbn [obnd]. rewrite E. cbn [obnd]. rewrite zset_imap by (rewrite imap_zlen; lia). cbn [obnd agc_gains]. f_equal. rewrite imap_imap. apply imap_ext. intros i v I. cbv beta.
    destruct (Z.ltb_spec i (Z.of_nat n)), (Z.ltb_spec i (Z.of_nat (S n))), (Z.eqb_spec i (Z.of_nat n)) as [->|N]; try lia; reflexivity.
Qed.
Lemma combine_imap (G : Z -> F) : forall (s gain : list F) k, length gain = length s -> map (fun xg => fmul (fst xg) (snd xg)) (combine s (imap (fun i _ => G i) k gain)) = imap (fun i x => fmul x (G i)) k s.
Proof.
  induction s as [|x s IH]; intros [|y gain] k L; try discriminate L; [reflexivity|]. cbn [imap combine map fst snd]. f_equal. apply IH. injection L as L. exact L.
Qed.

(** ---- windows of the temporal filter ---- *)
Lemma tf_read_app trc : forall a b, tf_read trc (a ++ b) = obnd (tf_read trc a) (fun x => obnd (tf_read trc b) (fun y => Done (x ++ y))).
Proof.
  induction a as [|i a IH]; intros b; cbn [app tf_read obnd].
  - destruct (tf_read trc b); reflexivity.
  - destruct (zget trc i); cbn [obnd]; try reflexivity. rewrite IH. destruct (tf_read trc a); cbn [obnd]; try reflexivity. destruct (tf_read trc b); reflexivity.
Qed.
Lemma tf_read_slice trc : forall n base, 0 <= base -> base + Z.of_nat n <= zlen trc ->
  tf_read trc (map (fun j => base + j) (zr (Z.of_nat n))) = Done (firstn n (skipn (Z.to_nat base) trc)).
Proof.
  induction n as [|n IH]; intros base B L; [reflexivity|]. rewrite zr_cons. cbn [map tf_read]. rewrite map_map, (map_ext (fun x => base + (1 + x)) (fun j => (base + 1) + j)) by (intros; lia). rewrite IH by lia. replace (base + 0) with base by lia.
  destruct (zget_ok trc base ltac:(lia)) as (x & -> & E). cbn [obnd]. f_equal. replace (Z.to_nat (base + 1)) with (S (Z.to_nat base)) by lia. revert E. generalize (Z.to_nat base). clear. intros b. revert trc. induction b as [|b IH]; intros [|y trc] E; try discriminate E.
  - injection E as ->. reflexivity.
  - cbn [skipn]. apply (IH trc E).
Qed.
Lemma tf_write_slice : forall w trc base, 0 <= base -> base + zlen w <= zlen trc ->
  tf_write trc (combine (map (fun j => base + j) (zr (zlen w))) w) = Done (firstn (Z.to_nat base) trc ++ w ++ skipn (Z.to_nat (base + zlen w)) trc).
Proof.
  induction w as [|x w IH]; intros trc base B L.
  - unfold zlen at 1. change (zr (Z.of_nat (length (@nil F)))) with (@nil Z). cbn [map combine tf_write app]. f_equal. unfold zlen. cbn [length]. rewrite Z.add_0_r. symmetry. apply firstn_skipn.
  - unfold zlen in *. cbn [length] in *. rewrite zr_cons. cbn [map combine tf_write]. rewrite map_map, (map_ext (fun x0 => base + (1 + x0)) (fun j => (base + 1) + j)) by (intros; lia). replace (base + 0) with base by lia. rewrite zset_ok by (unfold zlen; lia). cbn [obnd].
    rewrite IH by (rewrite ?lset_length; lia). f_equal. replace (base + 1 + Z.of_nat (length w)) with (base + Z.of_nat (S (length w))) by lia.
    replace (Z.to_nat (base + 1)) with (S (Z.to_nat base)) by lia. remember (Z.to_nat base) as b eqn:EB. remember (Z.to_nat (base + Z.of_nat (S (length w)))) as e eqn:EE. assert (BE : (b < e)%nat) by lia. assert (BL : (b < length trc)%nat) by lia. clear - BE BL.
    revert trc e BE BL. induction b as [|b IH]; intros [|y trc] e BE BL; try (cbn in BL; lia).
    + destruct e as [|e]; [lia|]. reflexivity.
    + destruct e as [|e]; [lia|]. cbn [length] in BL. specialize (IH trc e ltac:(lia) ltac:(lia)). cbn [lset firstn skipn app] in *. f_equal. exact IH.
Qed.
