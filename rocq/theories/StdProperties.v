(** C74, the version with redistribution (mpiMakeSEGYCopy). *)
From Coq Require Import Lia.
From Verif Require Import Base DecompModel DecompSpec DecompProofs DataIOModel DataIOProofs SignalProofs UtilModel UtilSpec RepModel RepProperties.
Import ListNotations.
Open Scope Z_scope.

(** The writes give every byte of the replicated file, and nothing else. *)
Definition replicated (fsz rep : Z) (ws : list write) : Prop :=
  Forall (fun w => forall k x, nth_error (snd w) k = Some x -> 0 <= fst w + Z.of_nat k < total fsz rep /\ x = origin fsz (fst w + Z.of_nat k)) ws /\
  (forall x, 0 <= x < total fsz rep -> exists w, In w ws /\ fst w <= x < fst w + Z.of_nat (length (snd w))).

(** ---- Runs of positions ---- *)
Lemma positions_length a n : 0 <= n -> Z.of_nat (length (positions a n)) = n.
Proof. intros N. unfold positions, zr. rewrite map_length. unfold zrange. rewrite ?map_length, ?seq_length. lia. Qed.
Lemma positions_length' a n : length (positions a n) = Z.to_nat n.
Proof. unfold positions, zr. rewrite map_length. unfold zrange. rewrite ?map_length, ?seq_length. reflexivity. Qed.
Lemma positions_app a n m : 0 <= n -> 0 <= m -> positions a (n + m) = positions a n ++ positions (a + n) m.
Proof.
  intros N M. unfold positions. rewrite zr_app by lia. rewrite map_app. f_equal. rewrite map_map. apply map_ext. intros k. lia.
Qed.
Lemma positions_firstn a n m : 0 <= m <= n -> firstn (Z.to_nat m) (positions a n) = positions a m.
Proof.
  intros H. replace n with (m + (n - m)) by lia. rewrite positions_app by lia. rewrite firstn_app. rewrite positions_length'. rewrite Nat.sub_diag. cbn [firstn]. rewrite app_nil_r. rewrite firstn_all2 by (rewrite positions_length'; lia). reflexivity.
Qed.
Lemma positions_skipn a n m : 0 <= m <= n -> skipn (Z.to_nat m) (positions a n) = positions (a + m) (n - m).
Proof.
  intros H. replace n with (m + (n - m)) at 1 by lia. rewrite positions_app by lia. rewrite skipn_app. rewrite positions_length'. rewrite Nat.sub_diag. cbn [skipn]. rewrite (skipn_all2 (positions a m)) by (rewrite positions_length'; lia). reflexivity.
Qed.
Lemma positions_nth a n k x : nth_error (positions a n) k = Some x -> x = a + Z.of_nat k /\ Z.of_nat k < n.
Proof.
  intros H. assert (L : (k < length (positions a n))%nat) by (apply nth_error_Some; congruence). rewrite positions_length' in L. unfold positions in H. rewrite nth_error_map in H. unfold zr, zrange in H. rewrite nth_error_map in H.
  rewrite (nth_error_nth' (seq 0 (Z.to_nat n)) 0%nat) in H by (rewrite seq_length; exact L). rewrite seq_nth in H by exact L. cbn in H. injection H as <-. lia.
Qed.

(** ---- Redistribution between neighbours ---- *)
Definition piece_of (b : nat -> Z) (r : nat) : piece := mkPiece (b r) (b (S r) - b r).
Definition slice_of (base : Z) (b : nat -> Z) (r : nat) : list Z := positions (base + b r) (b (S r) - b r).
Section Redistribute.
Variables (p : nat) (T base : Z) (b c : nat -> Z) (o n : nat -> piece) (v : nat -> list Z).
Hypothesis (Ho : forall r, (r < p)%nat -> o r = piece_of b r) (Hn : forall r, (r < p)%nat -> n r = piece_of c r) (Hv : forall r, (r < p)%nat -> v r = slice_of base b r).
Hypothesis (B0 : b 0%nat = 0) (C0 : c 0%nat = 0) (BP : b p = T) (CP : c p = T).
Hypothesis (BM : forall r, (r < p)%nat -> b r <= b (S r)) (CM : forall r, (r < p)%nat -> c r <= c (S r)).
Hypothesis (N1 : forall r, (r < p)%nat -> b r <= c (S r)) (N2 : forall r, (r < p)%nat -> c r <= b (S r)).
Lemma sent_down_ok r : (r < p)%nat -> sent_down o n v r = Some (positions (base + b r) (Z.max 0 (c r - b r))).
Proof.
  intros R. unfold sent_down. rewrite Ho, Hn, Hv by exact R. unfold piece_of, slice_of. cbn [global_offset]. rewrite positions_length by (specialize (BM r R); lia). destruct (Z.leb_spec (c r - b r) 0).
  - rewrite Z.max_l by lia. reflexivity.
  - rewrite Z.max_r by lia. destruct (Nat.eqb_spec r 0) as [->|]; [lia|]. cbn [orb]. specialize (N2 r R). destruct (Z.ltb_spec (b (S r) - b r) (c r - b r)); [lia|]. rewrite positions_firstn by lia. reflexivity.
Qed.
Lemma sent_up_ok r : (r < p)%nat -> sent_up p o n v r = Some (positions (base + Z.min (b (S r)) (c (S r))) (Z.max 0 (b (S r) - c (S r)))).
Proof.
  intros R. unfold sent_up, pend. rewrite Ho, Hn, Hv by exact R. unfold piece_of, slice_of. cbn [global_offset local_size]. replace (b r + (b (S r) - b r) - (c r + (c (S r) - c r))) with (b (S r) - c (S r)) by lia. rewrite positions_length by (specialize (BM r R); lia). destruct (Z.leb_spec (b (S r) - c (S r)) 0).
  - rewrite Z.max_l by lia. reflexivity.
  - rewrite Z.max_r by lia. destruct (Nat.eqb_spec (S r) p) as [E|]; [exfalso; rewrite E in *; lia|]. cbn [orb]. specialize (N1 r R). specialize (BM r R). destruct (Z.ltb_spec (b (S r) - b r) (b (S r) - c (S r))); [lia|]. rewrite positions_length'.
    replace (Z.to_nat (b (S r) - b r) - Z.to_nat (b (S r) - c (S r)))%nat with (Z.to_nat (c (S r) - b r)) by lia. rewrite positions_skipn by lia. f_equal. f_equal; lia.
Qed.
Lemma redistribute r : (r < p)%nat -> exchanged p o n v r = Some (slice_of base c r).
Proof.
  intros R. unfold exchanged. rewrite sent_down_ok, sent_up_ok by exact R. cbn [obind].
  assert (GB : got_below p o n v r = Some (positions (base + Z.min (b r) (c r)) (Z.max 0 (b r - c r)))).
  { unfold got_below. rewrite Ho, Hn by exact R. unfold piece_of. cbn [global_offset]. destruct (Z.leb_spec (b r - c r) 0); [rewrite Z.max_l by lia; reflexivity|]. destruct r as [|q]; [lia|]. rewrite sent_up_ok by lia. cbn [obind]. rewrite positions_length by lia. rewrite Z.max_r by lia. rewrite Z.eqb_refl. reflexivity. }
  assert (GA : got_above p o n v r = Some (positions (base + b (S r)) (Z.max 0 (c (S r) - b (S r))))).
  { unfold got_above, pend. rewrite Ho, Hn by exact R. unfold piece_of. cbn [global_offset local_size]. replace (c r + (c (S r) - c r) - (b r + (b (S r) - b r))) with (c (S r) - b (S r)) by lia. destruct (Z.leb_spec (c (S r) - b (S r)) 0); [rewrite Z.max_l by lia; reflexivity|]. destruct (Nat.eqb_spec (S r) p) as [E|]; [exfalso; rewrite E in *; lia|]. rewrite sent_down_ok by lia. cbn [obind]. rewrite positions_length by lia. rewrite Z.max_r by lia. rewrite Z.eqb_refl. reflexivity. }
  rewrite GB, GA. cbn [obind]. rewrite Hv, Hn, Ho by exact R. unfold slice_of, piece_of. cbn [global_offset local_size]. specialize (BM r R). specialize (CM r R). specialize (N1 r R). specialize (N2 r R).
  assert (W : positions (base + Z.min (b r) (c r)) (Z.max 0 (b r - c r)) ++ positions (base + b r) (b (S r) - b r) ++ positions (base + b (S r)) (Z.max 0 (c (S r) - b (S r))) = positions (base + Z.min (b r) (c r)) (Z.max (b (S r)) (c (S r)) - Z.min (b r) (c r))).
  { replace (Z.max (b (S r)) (c (S r)) - Z.min (b r) (c r)) with (Z.max 0 (b r - c r) + ((b (S r) - b r) + Z.max 0 (c (S r) - b (S r)))) by lia. rewrite positions_app by lia. f_equal. rewrite (positions_app _ (b (S r) - b r)) by lia. f_equal; f_equal; lia. }
  rewrite W. replace (Z.to_nat (c r - b r)) with (Z.to_nat (Z.max 0 (c r - b r))) by lia. rewrite positions_skipn by lia. rewrite positions_length by lia.
  destruct (Z.ltb_spec (Z.max (b (S r)) (c (S r)) - Z.min (b r) (c r) - Z.max 0 (c r - b r)) (c (S r) - c r)); [lia|]. rewrite positions_firstn by lia. do 2 f_equal; lia.
Qed.
End Redistribute.

(** ---- The boundaries used ---- *)
Definition starts (off : Z) : Z := rep_bsz - off mod rep_bsz.
Definition kcnt (T off : Z) : Z := (T - starts off - (off + T) mod rep_bsz) / rep_bsz + 2.
Definition cut (T : Z) (p : nat) (off : Z) (r : nat) : Z := bnd T rep_bsz (starts off) (off_of (kcnt T off) (Z.of_nat p) (Z.of_nat r)).
Lemma bsz_pos : 0 < rep_bsz. Proof. reflexivity. Qed.
Lemma kcnt_eq T off : 0 <= off -> 2 * rep_bsz <= T -> exists t e, kcnt T off = t + 2 /\ 0 <= t /\ 0 <= e < rep_bsz /\ T = starts off + e + t * rep_bsz /\ 1 <= starts off <= rep_bsz.
Proof.
  intros O H. pose proof bsz_pos as BP. pose proof (guard2 off T O H) as G. fold (starts off) in G. pose proof (Z.mod_pos_bound off rep_bsz BP). pose proof (Z.mod_pos_bound (off + T) rep_bsz BP).
  exists (kcnt T off - 2), ((off + T) mod rep_bsz). split; [lia|]. unfold kcnt.
  assert (E : T - starts off - (off + T) mod rep_bsz = ((off + T) / rep_bsz - off / rep_bsz - 1) * rep_bsz).
  { unfold starts. pose proof (Z.div_mod off rep_bsz ltac:(lia)). pose proof (Z.div_mod (off + T) rep_bsz ltac:(lia)). lia. }
  pose proof (Z.div_pos (T - starts off - (off + T) mod rep_bsz) rep_bsz ltac:(lia) BP) as DP. rewrite E in *. rewrite Z.div_mul in * by lia. split; [lia|]. split; [lia|]. split; [|unfold starts; lia].
  replace ((off + T) / rep_bsz - off / rep_bsz - 1 + 2 - 2) with ((off + T) / rep_bsz - off / rep_bsz - 1) by lia. lia.
Qed.
Lemma off_nonneg k p r : 0 <= k -> 0 < p -> 0 <= r -> 0 <= off_of k p r.
Proof. intros. rewrite <- (off_0 k p) by lia. apply off_mono; lia. Qed.
Lemma off_succ k p r : 0 <= k -> 0 < p -> 0 <= r <= p -> off_of k p r <= off_of (k + 1) p r <= off_of k p r + 1.
Proof.
  intros K P R. unfold off_of. pose proof (Z.div_mod k p ltac:(lia)) as E. pose proof (Z.mod_pos_bound k p P) as B. destruct (Z.eq_dec (k mod p) (p - 1)) as [M|M].
  - replace ((k + 1) / p) with (k / p + 1); [|apply (Z.div_unique _ _ _ 0); lia]. replace ((k + 1) mod p) with 0; [|apply (Z.mod_unique _ _ (k / p + 1)); lia]. lia.
  - replace ((k + 1) / p) with (k / p); [|apply (Z.div_unique _ _ _ (k mod p + 1)); lia]. replace ((k + 1) mod p) with (k mod p + 1); [|apply (Z.mod_unique _ _ (k / p)); lia]. lia.
Qed.
Lemma off_le k p r : 0 <= k -> 0 < p -> 0 <= r <= p -> off_of k p r <= k.
Proof. intros. rewrite <- (off_p k p) at 2 by lia. apply off_mono; lia. Qed.
Lemma bnd_le T s j : 0 <= T -> bnd T rep_bsz s j <= T.
Proof. intros. unfold bnd. destruct (j =? 0); lia. Qed.
Lemma bnd_nonneg T s j : 0 <= T -> 1 <= s -> 0 <= j -> 0 <= bnd T rep_bsz s j.
Proof. intros. unfold bnd. pose proof bsz_pos. destruct (Z.eqb_spec j 0); [lia|]. pose proof (Z.mul_le_mono_nonneg_r 1 j rep_bsz ltac:(lia) ltac:(lia)). lia. Qed.
Lemma cut_near T p a b r : 0 <= a -> 0 <= b -> 2 * rep_bsz <= T -> (r < p)%nat -> cut T p b r <= cut T p a (S r).
Proof.
  intros A B H R. pose proof bsz_pos as BP. destruct (kcnt_eq T a A H) as (t1 & e1 & K1 & T1 & E1 & ET1 & S1). destruct (kcnt_eq T b B H) as (t2 & e2 & K2 & T2 & E2 & ET2 & S2). unfold cut.
  set (k1 := kcnt T a) in *. set (k2 := kcnt T b) in *. set (s1 := starts a) in *. set (s2 := starts b) in *. clearbody k1 k2 s1 s2. set (P := Z.of_nat p) in *. assert (PP : 0 < P) by lia. replace (Z.of_nat (S r)) with (Z.of_nat r + 1) by lia. set (q := Z.of_nat r) in *. assert (Q : 0 <= q < P) by lia. clearbody P q.
  assert (D1 : t2 <= t1 + 1). { destruct (Z.le_gt_cases t2 (t1 + 1)); [assumption|]. pose proof (Z.mul_le_mono_nonneg_r (t1 + 2) t2 rep_bsz ltac:(lia) ltac:(lia)). lia. }
  assert (D2 : t1 <= t2 + 1). { destruct (Z.le_gt_cases t1 (t2 + 1)); [assumption|]. pose proof (Z.mul_le_mono_nonneg_r (t2 + 2) t1 rep_bsz ltac:(lia) ltac:(lia)). lia. }
  pose proof (bnd_le T s2 (off_of k2 P q) ltac:(lia)) as LT.
  pose proof (off_nonneg k2 P q ltac:(lia) ltac:(lia) ltac:(lia)) as ON.
  destruct (Z.eq_dec (off_of k2 P q) 0) as [Z0|NZ]. { rewrite Z0. unfold bnd at 1. cbn [Z.eqb]. apply bnd_nonneg; try lia. apply off_nonneg; lia. }
  assert (ST : off_of k1 P (q + 1) = off_of k1 P q + sz_of k1 P q) by (apply off_step; lia).
  assert (SZ : 0 <= sz_of k1 P q). { unfold sz_of. pose proof (Z.div_pos k1 P ltac:(lia) ltac:(lia)). destruct (q <? k1 mod P); lia. }
  destruct (Z.eq_dec (sz_of k1 P q) 0) as [SE|SN].
  - rewrite ST, SE, Z.add_0_r. rewrite (off_empty k1 P q) by lia. unfold bnd at 2. destruct (Z.eqb_spec k1 0); [lia|]. rewrite Z.min_l; [exact LT|]. rewrite K1. lia.
  - set (m := off_of k1 P (q + 1)) in *. set (m' := off_of k2 P q) in *. assert (M0 : 1 <= m) by (pose proof (off_nonneg k1 P q ltac:(lia) ltac:(lia) ltac:(lia)); lia).
    unfold bnd. destruct (Z.eqb_spec m' 0); [lia|]. destruct (Z.eqb_spec m 0); [lia|]. apply Z.min_le_compat_l.
    assert (CASE : m' + 1 <= m \/ (m' <= m /\ t2 = t1 + 1)).
    { destruct (Z.eq_dec t2 (t1 + 1)) as [EQ|NE].
      - right. split; [|exact EQ]. pose proof (off_succ k1 P q ltac:(lia) ltac:(lia) ltac:(lia)). replace (k1 + 1) with k2 in * by lia. unfold m'. lia.
      - left. destruct (Z.eq_dec t2 t1) as [EQ|NE2]; [assert (off_of k2 P q = off_of k1 P q) by (f_equal; lia); unfold m'; lia|]. pose proof (off_succ k2 P q ltac:(lia) ltac:(lia) ltac:(lia)) as OS. replace (k2 + 1) with k1 in OS by lia. unfold m'. lia. }
    destruct CASE as [C|(C & EQ)].
    + pose proof (Z.mul_le_mono_nonneg_r (m' + 1) m rep_bsz ltac:(lia) ltac:(lia)). lia.
    + pose proof (Z.mul_le_mono_nonneg_r m' m rep_bsz ltac:(lia) ltac:(lia)). rewrite EQ in ET2. lia.
Qed.
Lemma cut_0 T p off : (0 < p)%nat -> 0 <= off -> 2 * rep_bsz <= T -> cut T p off 0 = 0.
Proof. intros P O H. destruct (kcnt_eq T off O H) as (t & e & K & T0 & _). unfold cut. rewrite off_0 by lia. reflexivity. Qed.
Lemma cut_p T p off : (0 < p)%nat -> 0 <= off -> 2 * rep_bsz <= T -> cut T p off p = T.
Proof. intros P O H. pose proof bsz_pos. destruct (kcnt_eq T off O H) as (t & e & K & T0 & E & ET & S). unfold cut. rewrite off_p by lia. unfold bnd. destruct (Z.eqb_spec (kcnt T off) 0); [lia|]. rewrite K in *. lia. Qed.
Lemma cut_mono T p off r : (r < p)%nat -> 0 <= off -> 2 * rep_bsz <= T -> cut T p off r <= cut T p off (S r).
Proof. intros R O H. apply cut_near; assumption. Qed.
Lemma cut_range T p off r : (r <= p)%nat -> (0 < p)%nat -> 0 <= off -> 2 * rep_bsz <= T -> 0 <= cut T p off r <= T.
Proof. intros R P O H. pose proof bsz_pos. destruct (kcnt_eq T off O H) as (t & e & K & T0 & E & ET & S). unfold cut. split; [apply bnd_nonneg; try lia; apply off_nonneg; lia|apply bnd_le; lia]. Qed.
Lemma decs_cut T p off r : (r < p)%nat -> 0 <= off -> 2 * rep_bsz <= T -> off + T < two64 -> T + 2 * rep_bsz < two64 -> decs T (Z.of_nat p) off r = Some (piece_of (cut T p off) r).
Proof.
  intros R O H B B2. pose proof bsz_pos. unfold decs. pose proof (blockDecomp_exact T rep_bsz (Z.of_nat p) (Z.of_nat r) off ltac:(lia) O ltac:(lia) B B2 ltac:(lia) ltac:(lia) (guard2 off T O H)) as EX. cbv zeta in EX. rewrite EX. unfold piece_of, cut, kcnt, starts. replace (Z.of_nat (S r)) with (Z.of_nat r + 1) by lia. reflexivity.
Qed.
Lemma cut_find T p off y : (0 < p)%nat -> 0 <= off -> 2 * rep_bsz <= T -> 0 <= y < T -> exists r, (r < p)%nat /\ cut T p off r <= y < cut T p off (S r).
Proof.
  intros P O H Y. assert (F : forall k, (k <= p)%nat -> y < cut T p off k -> exists r, (r < k)%nat /\ cut T p off r <= y < cut T p off (S r)).
  { induction k as [|k IH]; intros K L; [rewrite cut_0 in L by assumption; lia|]. destruct (Z.lt_ge_cases y (cut T p off k)) as [L2|G].
    - destruct (IH ltac:(lia) L2) as (r & R & X). exists r. split; [lia|exact X].
    - exists k. split; [lia|]. lia. }
  apply F; [lia|]. rewrite cut_p by assumption. lia.
Qed.
(** ---- The copies ---- *)
Lemma everywhere_map {A} (f : nat -> option A) g rs : (forall r, In r rs -> f r = Some (g r)) -> everywhere f rs = Some (map g rs).
Proof. induction rs as [|r rs IH]; intros H; [reflexivity|]. cbn [everywhere map]. rewrite H by (left; reflexivity). cbn [obind]. rewrite IH by (intros; apply H; right; assumption). reflexivity. Qed.
Lemma nth_map_seq {A} (g : nat -> A) p r d : (r < p)%nat -> nth r (map g (seq 0 p)) d = g r.
Proof. intros R. rewrite (nth_indep _ d (g 0%nat)) by (rewrite map_length, seq_length; exact R). rewrite map_nth. rewrite seq_nth by exact R. reflexivity. Qed.
Definition off_at (fsz i j : Z) : Z := hosz + (fsz - hosz) * j + i.
Definition writes_at (base T : Z) (p : nat) (off : Z) : list write := map (fun r => (off + cut T p off r, slice_of base (cut T p off) r)) (seq 0 p).
Lemma put_slice base T p off r : (r < p)%nat -> 0 <= off -> 2 * rep_bsz <= T -> put (off + cut T p off r) (cut T p off (S r) - cut T p off r) (slice_of base (cut T p off) r) = Some (off + cut T p off r, slice_of base (cut T p off) r).
Proof.
  intros R O H. pose proof (cut_mono T p off r R O H). unfold put, slice_of. rewrite positions_length by lia. destruct (Z.ltb_spec (cut T p off (S r) - cut T p off r) 0); [lia|]. rewrite Z.ltb_irrefl. cbn [orb]. rewrite positions_firstn by lia. reflexivity.
Qed.
Lemma std_copies_ok p fsz i T base : (0 < p)%nat -> hosz <= fsz -> 0 <= i -> 2 * rep_bsz <= T -> T + 2 * rep_bsz < two64 ->
  forall js a, 0 <= a -> (forall j, In j js -> 0 <= j /\ off_at fsz i j + T < two64) ->
  std_copies p fsz i T js (map (piece_of (cut T p a)) (seq 0 p)) (map (slice_of base (cut T p a)) (seq 0 p)) =
  Some (flat_map (fun j => writes_at base T p (off_at fsz i j)) js).
Proof.
  intros P F I H B2. pose proof bsz_pos as BP. pose proof hosz_pos as HP. induction js as [|j js IH]; intros a A J; [reflexivity|]. cbn [std_copies flat_map].
  destruct (J j (or_introl eq_refl)) as (J0 & JB). assert (M : 0 <= (fsz - hosz) * j) by (apply Z.mul_nonneg_nonneg; lia).
  assert (OF : u64 (hosz + u64 ((fsz - hosz) * j) + i) = off_at fsz i j). { unfold off_at in *. rewrite (u64_small ((fsz - hosz) * j)) by (unfold in_u64; lia). apply u64_small. unfold in_u64. lia. }
  rewrite OF. assert (O0 : 0 <= off_at fsz i j) by (unfold off_at; lia). set (off := off_at fsz i j) in *. clearbody off.
  rewrite (everywhere_map _ (piece_of (cut T p off))) by (intros r R; apply in_seq in R; apply decs_cut; lia). cbn [obind].
  assert (EXC : (if (p =? 1)%nat then Some (map (slice_of base (cut T p a)) (seq 0 p))
     else everywhere (exchanged p (fun r => nth r (map (piece_of (cut T p a)) (seq 0 p)) (mkPiece 0 0)) (fun r => nth r (map (piece_of (cut T p off)) (seq 0 p)) (mkPiece 0 0)) (fun r => nth r (map (slice_of base (cut T p a)) (seq 0 p)) [])) (seq 0 p)) = Some (map (slice_of base (cut T p off)) (seq 0 p))).
  { destruct (Nat.eqb_spec p 1) as [E|NE].
    - f_equal. apply map_ext_in. intros r R. apply in_seq in R. assert (r = 0%nat) by lia. subst r. unfold slice_of. rewrite !cut_0 by assumption. replace (cut T p a 1) with (cut T p a p) by (f_equal; exact E). replace (cut T p off 1) with (cut T p off p) by (f_equal; exact E). rewrite !cut_p by assumption. reflexivity.
    - apply everywhere_map. intros r R. apply in_seq in R. apply (redistribute p T base (cut T p a) (cut T p off)); try (intros q Q); try (rewrite nth_map_seq by exact Q; reflexivity); try (apply cut_0; assumption); try (apply cut_p; assumption); try (apply cut_mono; assumption); try (apply cut_near; assumption). lia. }
  rewrite EXC. cbn [obind].
  rewrite (everywhere_map _ (fun r => (off + cut T p off r, slice_of base (cut T p off) r))).
  2: { intros r R. apply in_seq in R. cbv zeta. rewrite !nth_map_seq by lia. unfold piece_of at 1 2. cbn [global_offset local_size]. apply put_slice; [lia|assumption|assumption]. }
  cbn [obind]. rewrite IH by (try assumption; intros; apply J; right; assumption). reflexivity.
Qed.
(** ---- The first chunk ---- *)
Lemma kcnt_head fsz : 3 * rep_bsz <= fsz -> kcnt (fsz - hosz) hosz = kcnt fsz 0.
Proof.
  intros H. unfold kcnt, starts. replace (hosz mod rep_bsz) with hosz by reflexivity. replace (0 mod rep_bsz) with 0 by reflexivity. do 2 f_equal. replace (hosz + (fsz - hosz)) with fsz by lia. replace (0 + fsz) with fsz by lia. lia.
Qed.
Lemma cut_head fsz p r : 3 * rep_bsz <= fsz -> (r <= p)%nat -> (0 < r)%nat -> cut (fsz - hosz) p hosz r = cut fsz p 0 r - hosz.
Proof.
  intros H RP R. pose proof bsz_pos. assert (HE : hosz = 3600) by reflexivity. assert (BE : rep_bsz = 2097152) by reflexivity. destruct (kcnt_eq fsz 0 ltac:(lia) ltac:(lia)) as (t & e & K & T0 & _). unfold cut. rewrite kcnt_head by exact H. unfold starts. replace (hosz mod rep_bsz) with hosz by reflexivity. replace (0 mod rep_bsz) with 0 by reflexivity.
  assert (1 <= off_of (kcnt fsz 0) (Z.of_nat p) (Z.of_nat r)). { etransitivity; [apply (off_ge1 (kcnt fsz 0) (Z.of_nat p)); lia|]. apply off_mono; lia. }
  unfold bnd. destruct (Z.eqb_spec (off_of (kcnt fsz 0) (Z.of_nat p) (Z.of_nat r)) 0); [lia|]. lia.
Qed.
Lemma cut_first fsz p r : 3 * rep_bsz <= fsz -> (r <= p)%nat -> (0 < r)%nat -> rep_bsz <= cut fsz p 0 r.
Proof.
  intros H RP R. pose proof bsz_pos. destruct (kcnt_eq fsz 0 ltac:(lia) ltac:(lia)) as (t & e & K & T0 & _). unfold cut, starts. replace (0 mod rep_bsz) with 0 by reflexivity.
  assert (J : 1 <= off_of (kcnt fsz 0) (Z.of_nat p) (Z.of_nat r)). { etransitivity; [apply (off_ge1 (kcnt fsz 0) (Z.of_nat p)); lia|]. apply off_mono; lia. }
  unfold bnd. destruct (Z.eqb_spec (off_of (kcnt fsz 0) (Z.of_nat p) (Z.of_nat r)) 0); [lia|]. pose proof (Z.mul_le_mono_nonneg_r _ _ rep_bsz ltac:(lia) J). lia.
Qed.
Definition js_of (rep : Z) : list Z := map (fun k => k + 1) (zr (rep - 1)).
Lemma in_js rep j : In j (js_of rep) <-> 1 <= j < rep.
Proof. unfold js_of. rewrite in_map_iff. split; [intros (k & <- & K); apply in_zr' in K; lia|intros J; exists (j - 1); split; [lia|apply in_zr'; lia]]. Qed.
Lemma std_chunk_first p fsz rep : (0 < p)%nat -> 3 * rep_bsz <= fsz <= rep_step (Z.of_nat p) -> 1 <= rep -> total fsz rep < two64 -> fsz + 2 * rep_bsz < two64 ->
  std_chunk p fsz rep 0 = Some (writes_at 0 fsz p 0 ++ flat_map (fun j => writes_at hosz (fsz - hosz) p (off_at fsz 0 j)) (js_of rep)).
Proof.
  intros P (L & U) R B B2. assert (HE : hosz = 3600) by reflexivity. assert (BE : rep_bsz = 2097152) by reflexivity. unfold std_chunk. destruct (Z.ltb_spec (0 + rep_step (Z.of_nat p)) fsz); [lia|]. cbv zeta. rewrite Z.sub_0_r. cbn [Z.eqb].
  rewrite (everywhere_map _ (piece_of (cut fsz p 0))) by (intros r Hr; apply in_seq in Hr; apply decs_cut; lia). cbn [obind].
  replace (map (fun d => positions (0 + global_offset d) (local_size d)) (map (piece_of (cut fsz p 0)) (seq 0 p))) with (map (slice_of 0 (cut fsz p 0)) (seq 0 p)) by (rewrite map_map; reflexivity).
  rewrite (everywhere_map _ (fun r => (0 + cut fsz p 0 r, slice_of 0 (cut fsz p 0) r))).
  2: { intros r Hr. apply in_seq in Hr. rewrite !nth_map_seq by lia. unfold piece_of at 1 2. cbn [global_offset local_size]. apply put_slice; lia. }
  cbn [obind].
  rewrite (everywhere_map _ (fun r => (piece_of (cut (fsz - hosz) p hosz) r, slice_of hosz (cut (fsz - hosz) p hosz) r))).
  2: { intros r Hr. apply in_seq in Hr. rewrite !nth_map_seq by lia. unfold piece_of at 1 2 3 4 5. cbn [global_offset local_size]. destruct r as [|r].
    - rewrite cut_0 by lia. cbn [Z.eqb]. rewrite Z.sub_0_r. pose proof (cut_first fsz p 1 ltac:(lia) ltac:(lia) ltac:(lia)). destruct (Z.ltb_spec (cut fsz p 0 1) hosz); [lia|]. f_equal. unfold piece_of, slice_of. rewrite (cut_head fsz p 1) by lia. rewrite !cut_0 by lia. f_equal; [f_equal; lia|]. rewrite positions_skipn by lia. f_equal; lia.
    - pose proof (cut_first fsz p (S r) ltac:(lia) ltac:(lia) ltac:(lia)). destruct (Z.eqb_spec (cut fsz p 0 (S r)) 0); [lia|]. pose proof (cut_range fsz p 0 (S r) ltac:(lia) ltac:(lia) ltac:(lia) ltac:(lia)). rewrite u64_small by (unfold in_u64; lia). f_equal. unfold piece_of, slice_of. rewrite !cut_head by lia. f_equal; f_equal; lia. }
  cbn [obind]. rewrite !map_map. cbn [fst snd]. fold (js_of rep).
  rewrite (map_ext (fun x => piece_of (cut (fsz - hosz) p hosz) x) (piece_of (cut (fsz - hosz) p hosz))) by reflexivity. rewrite (map_ext (fun x => slice_of hosz (cut (fsz - hosz) p hosz) x) (slice_of hosz (cut (fsz - hosz) p hosz))) by reflexivity.
  rewrite std_copies_ok; [reflexivity|lia..|]. intros j J. apply in_js in J. split; [lia|]. unfold off_at, total in *. pose proof (Z.mul_le_mono_nonneg_l (j + 1) rep (fsz - hosz) ltac:(lia) ltac:(lia)). lia.
Qed.
Theorem C74_standard_partial : forall p fsz rep, (0 < p)%nat -> 3 * rep_bsz <= fsz <= rep_step (Z.of_nat p) -> 1 <= rep -> total fsz rep < two64 -> fsz + 2 * rep_bsz < two64 ->
  exists ws, makeSEGYCopy p fsz rep = Some ws /\ replicated fsz rep ws.
Proof.
  intros p fsz rep P (L & U) R B B2. assert (HE : hosz = 3600) by reflexivity. assert (BE : rep_bsz = 2097152) by reflexivity. eexists. split.
  - unfold makeSEGYCopy. rewrite chunks_one by lia. cbn [std_chunks]. rewrite std_chunk_first by (try assumption; lia). cbn [obind]. reflexivity.
  - rewrite app_nil_r. split.
    + apply Forall_app. split.
      * apply Forall_forall. intros w W. unfold writes_at in W. apply in_map_iff in W. destruct W as (r & <- & Hr). apply in_seq in Hr. cbn [fst snd]. intros k x X. apply positions_nth in X. destruct X as (-> & X). pose proof (cut_range fsz p 0 r ltac:(lia) ltac:(lia) ltac:(lia) ltac:(lia)). pose proof (cut_range fsz p 0 (S r) ltac:(lia) ltac:(lia) ltac:(lia) ltac:(lia)). rewrite origin_head by lia. pose proof (total_small fsz rep 0 (cut fsz p 0 r + Z.of_nat k) ltac:(lia) ltac:(lia) ltac:(lia)). lia.
      * apply Forall_forall. intros w W. apply in_flat_map in W. destruct W as (j & J & W). apply in_js in J. unfold writes_at in W. apply in_map_iff in W. destruct W as (r & <- & Hr). apply in_seq in Hr. cbn [fst snd]. intros k x X. apply positions_nth in X. destruct X as (-> & X).
        set (T := fsz - hosz) in *. set (off := off_at fsz 0 j) in *. assert (M : 0 <= (fsz - hosz) * j) by (apply Z.mul_nonneg_nonneg; lia). assert (O : 0 <= off) by (unfold off, off_at; lia). assert (OE : off = hosz + (fsz - hosz) * j) by (unfold off, off_at; lia). clearbody off.
        pose proof (cut_range T p off r ltac:(lia) ltac:(lia) O ltac:(unfold T; lia)). pose proof (cut_range T p off (S r) ltac:(lia) ltac:(lia) O ltac:(unfold T; lia)).
        replace (off + cut T p off r + Z.of_nat k) with ((fsz - hosz) * j + (hosz + cut T p off r + Z.of_nat k)) by lia.
        rewrite origin_copy by (unfold T in *; lia). pose proof (total_small fsz rep j (hosz + cut T p off r + Z.of_nat k) ltac:(lia) ltac:(lia) ltac:(unfold T in *; lia)). lia.
    + intros x X. destruct (Z.lt_ge_cases x fsz) as [LT|GE].
      * destruct (cut_find fsz p 0 x P ltac:(lia) ltac:(lia) ltac:(lia)) as (r & Hr & C). exists (0 + cut fsz p 0 r, slice_of 0 (cut fsz p 0) r). split; [apply in_or_app; left; unfold writes_at; apply in_map_iff; exists r; split; [reflexivity|apply in_seq; lia]|]. cbn [fst snd]. unfold slice_of. rewrite positions_length by lia. lia.
      * destruct (split_pos fsz rep x ltac:(lia) ltac:(lia)) as (q & y & Q & Y & EX). set (T := fsz - hosz) in *. set (off := off_at fsz 0 q). assert (M : 0 <= (fsz - hosz) * q) by (apply Z.mul_nonneg_nonneg; lia). assert (OE : off = hosz + T * q) by (unfold off, off_at, T; lia).
        destruct (cut_find T p off (y - hosz) P ltac:(unfold T in *; lia) ltac:(unfold T in *; lia) ltac:(unfold T in *; lia)) as (r & Hr & C). exists (off + cut T p off r, slice_of hosz (cut T p off) r). split; [apply in_or_app; right; apply in_flat_map; exists q; split; [apply in_js; lia|]; unfold writes_at; apply in_map_iff; exists r; split; [reflexivity|apply in_seq; lia]|]. cbn [fst snd]. unfold slice_of. rewrite positions_length by lia. lia.
Qed.
Print Assumptions C74_standard_partial.
(** Later chunks are again written 3600 bytes too far on. *)
Lemma std_chunks_in f : forall is l i, std_chunks f is = Some l -> In i is -> exists a, f i = Some a /\ incl a l.
Proof.
  induction is as [|j is IH]; intros l i H I; [destruct I|]. cbn [std_chunks] in H. destruct (f j) as [a|] eqn:E; [|discriminate H]. cbn [obind] in H. destruct (std_chunks f is) as [b|] eqn:E2; [|discriminate H]. cbn [obind] in H. injection H as <-. destruct I as [<-|I].
  - exists a. split; [exact E|apply incl_appl, incl_refl].
  - destruct (IH b i eq_refl I) as (a' & E' & IN). exists a'. split; [exact E'|apply incl_appr, IN].
Qed.
Lemma combine_map {A B C} (f : A -> B) (g : A -> C) : forall l, combine (map f l) (map g l) = map (fun x => (f x, g x)) l.
Proof. induction l as [|a l IH]; [reflexivity|]. cbn. rewrite IH. reflexivity. Qed.
Lemma std_chunk_later p fsz rep i : (0 < p)%nat -> 0 < i -> let T := (if i + rep_step (Z.of_nat p) <? fsz then rep_step (Z.of_nat p) else fsz - i) in 2 * rep_bsz <= T -> hosz <= fsz -> i < fsz -> 1 <= rep -> total fsz rep + fsz < two64 -> fsz + 2 * rep_bsz < two64 ->
  std_chunk p fsz rep i = Some (writes_at i T p i ++ flat_map (fun j => writes_at i T p (off_at fsz i j)) (js_of rep)).
Proof.
  intros P I T L HF IF R B B2. assert (HE : hosz = 3600) by reflexivity. assert (BE : rep_bsz = 2097152) by reflexivity. assert (ST : 0 < rep_step (Z.of_nat p)) by (unfold rep_step; lia). assert (TF : T <= fsz) by (unfold T; destruct (Z.ltb_spec (i + rep_step (Z.of_nat p)) fsz); lia). assert (TF2 : i + T <= fsz) by (unfold T in *; destruct (Z.ltb_spec (i + rep_step (Z.of_nat p)) fsz); lia).
  unfold std_chunk. fold T. cbv zeta. clearbody T. destruct (Z.eqb_spec i 0); [lia|].
  assert (MT : 0 <= (fsz - hosz) * rep) by (apply Z.mul_nonneg_nonneg; lia). assert (M1 : (fsz - hosz) * 1 <= (fsz - hosz) * rep) by (apply Z.mul_le_mono_nonneg_l; lia). unfold total in B.
  rewrite (everywhere_map _ (piece_of (cut T p i))) by (intros r Hr; apply in_seq in Hr; apply decs_cut; lia). cbn [obind].
  replace (map (fun d => positions (i + global_offset d) (local_size d)) (map (piece_of (cut T p i)) (seq 0 p))) with (map (slice_of i (cut T p i)) (seq 0 p)) by (rewrite map_map; reflexivity).
  rewrite (everywhere_map _ (fun r => (i + cut T p i r, slice_of i (cut T p i) r))).
  2: { intros r Hr. apply in_seq in Hr. rewrite !nth_map_seq by lia. unfold piece_of at 1 2. cbn [global_offset local_size]. apply put_slice; lia. }
  cbn [obind]. rewrite combine_map. rewrite !map_map. cbn [fst snd]. fold (js_of rep).
  rewrite (map_ext (fun x => piece_of (cut T p i) x) (piece_of (cut T p i))) by reflexivity. rewrite (map_ext (fun x => slice_of i (cut T p i) x) (slice_of i (cut T p i))) by reflexivity.
  rewrite std_copies_ok; [reflexivity|lia..|]. intros j J. apply in_js in J. split; [lia|]. unfold off_at. pose proof (Z.mul_le_mono_nonneg_l (j + 1) rep (fsz - hosz) ltac:(lia) ltac:(lia)). lia.
Qed.
Theorem C74_standard_large_refuted : forall p fsz rep, (0 < p)%nat -> rep_step (Z.of_nat p) + 2 * rep_bsz <= fsz -> 2 <= rep -> total fsz rep + fsz < two64 ->
  ~ (exists ws, makeSEGYCopy p fsz rep = Some ws /\ replicated fsz rep ws).
Proof.
  intros p fsz rep P L R B (ws & E & W & _). assert (HE : hosz = 3600) by reflexivity. assert (BE : rep_bsz = 2097152) by reflexivity. set (step := rep_step (Z.of_nat p)) in *. assert (SE : 1073741824 <= step) by (unfold step, rep_step, rep_bsz; lia).
  assert (FT : 2 * (fsz - hosz) <= (fsz - hosz) * rep). { pose proof (Z.mul_le_mono_nonneg_l 2 rep (fsz - hosz) ltac:(lia) ltac:(lia)). lia. } unfold total in B.
  unfold makeSEGYCopy in E. fold step in E. destruct (std_chunks_in _ _ _ step E (chunks_two fsz step ltac:(lia))) as (a & EA & IN).
  rewrite std_chunk_later in EA; [|unfold total; fold step; try lia..].
  2: { destruct (Z.ltb_spec (step + step) fsz); lia. }
  fold step in EA. set (T := if step + step <? fsz then step else fsz - step) in *. assert (TL : 2 * rep_bsz <= T) by (unfold T; destruct (Z.ltb_spec (step + step) fsz); lia). clearbody T. injection EA as <-.
  set (off := off_at fsz step 1). assert (O : 0 <= off) by (unfold off, off_at; lia).
  destruct (cut_find T p off 0 P O TL ltac:(lia)) as (r & Hr & C). pose proof (cut_range T p off r ltac:(lia) P O TL). assert (C0 : cut T p off r = 0) by lia.
  rewrite Forall_forall in W. specialize (W (off + cut T p off r, slice_of step (cut T p off) r)). cbn [fst snd] in W. rewrite C0 in *.
  destruct (W ltac:(apply IN, in_or_app; right; apply in_flat_map; exists 1; split; [apply in_js; lia|]; unfold writes_at; apply in_map_iff; exists r; split; [fold off; rewrite C0; reflexivity|apply in_seq; lia]) 0%nat step) as (_ & W2).
  { unfold slice_of. rewrite C0. destruct (nth_error (positions (step + 0) (cut T p off (S r) - 0)) 0) as [y|] eqn:Y; [apply positions_nth in Y; destruct Y as (-> & _); f_equal; lia|]. apply nth_error_None in Y. rewrite positions_length' in Y. lia. }
  revert W2. unfold off, off_at. replace (hosz + (fsz - hosz) * 1 + step + 0 + Z.of_nat 0) with (hosz + (fsz - hosz) * (0 + 1) + step) by lia. intros W2. symmetry in W2. revert W2. apply shifted_wrong; lia.
Qed.
Print Assumptions C74_standard_large_refuted.
Example C74_standard_demo : (exists ws, makeSEGYCopy 4 10000000 3 = Some ws /\ replicated 10000000 3 ws) /\ ~ (exists ws, makeSEGYCopy 4 8000000000 2 = Some ws /\ replicated 8000000000 2 ws).
Proof. split; [apply C74_standard_partial|apply C74_standard_large_refuted]; unfold two64, total, hosz, rep_step, rep_bsz; lia. Qed.
