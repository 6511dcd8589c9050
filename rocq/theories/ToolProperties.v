(** C84-C87: what the programs of util write. *)
From Coq Require Import Sorted Permutation.
From Flocq Require Import IEEE754.BinarySingleNaN.
From Verif Require Import Base DecompModel DecompProofs DataIOModel DataIOProofs FloatModel SortModel SortSpec SortProofs SortProperties FlowModel FlowProofs UtilModel UtilProperties ToolModel.
Import ListNotations.
Open Scope Z_scope.

(** ---- helpers ---- *)
Lemma sub_block {A} (l : list A) : forall n i, flat_map (fun b => firstn (snd b) (skipn (fst b) l)) [(i, n)] = firstn n (skipn i l).
Proof. intros. cbn. apply app_nil_r. Qed.
Lemma blocks_flat {B} (f : nat -> B) bl : flat_map (fun b => map f (seq (fst b) (snd b))) bl = map f (flat_map (fun b => seq (fst b) (snd b)) bl).
Proof. induction bl as [|b bl IH]; [reflexivity|]. cbn [flat_map]. rewrite map_app, IH. reflexivity. Qed.
Lemma block_map {B} max lnt (f : nat -> B) : (0 < max)%nat -> flat_map (fun b => map f (seq (fst b) (snd b))) (block_list max lnt) = map f (seq 0 lnt).
Proof. intros M. rewrite blocks_flat. destruct (block_list_spec max lnt M) as (E & _). rewrite E. reflexivity. Qed.
Lemma zr_seq n : zr (Z.of_nat n) = map Z.of_nat (seq 0 n).
Proof. unfold zr, zrange. rewrite Nat2Z.id. reflexivity. Qed.
Lemma seq_shift_map i n : map (fun j => (i + j)%nat) (seq 0 n) = seq i n.
Proof. revert i. induction n as [|n IH]; intros i; [reflexivity|]. cbn [seq map]. rewrite Nat.add_0_r. f_equal. rewrite <- seq_shift, map_map. rewrite <- (IH (S i)). apply map_ext. intros; lia. Qed.
Lemma block_map_rel {B} (f : nat -> nat -> B) (g : nat -> B) max lnt : (0 < max)%nat -> (forall i j, (i + j < lnt)%nat -> f i j = g (i + j)%nat) ->
  flat_map (fun b => map (fun j => f (fst b) (Z.to_nat j)) (zr (Z.of_nat (snd b)))) (block_list max lnt) = map g (seq 0 lnt).
Proof.
  intros M H. rewrite <- (block_map max lnt g M). destruct (block_list_spec max lnt M) as (E & _).
  assert (IN : forall b, In b (block_list max lnt) -> forall k, In k (seq (fst b) (snd b)) -> (k < lnt)%nat).
  { intros b Bb k K. assert (In k (seq 0 lnt)) as H0 by (rewrite <- E; apply in_flat_map; eauto). apply in_seq in H0. lia. }
  clear E. induction (block_list max lnt) as [|b bl IH]; [reflexivity|]. cbn [flat_map]. rewrite IH by (intros; eapply IN; [right; eassumption|eassumption]). f_equal.
  rewrite zr_seq, map_map, <- (seq_shift_map (fst b) (snd b)), map_map. apply map_ext_in. intros k K. apply in_seq in K. rewrite Nat2Z.id. apply H.
  apply (IN b (or_introl eq_refl)). apply in_seq. lia.
Qed.

(** ---- C84 filemake ---- *)
(** What trace t of the file should hold: a function of the file's size only. *)
Definition should_hold (nt ns t : Z) : made := (map (fun s => fm_sample nt ns (t * ns + s)) (zr ns), fm_key nt t, t).
Lemma in_zr_pos n s : In s (zr n) -> 0 <= s < n.
Proof. apply in_zr. Qed.
Lemma zr_nat n : 0 <= n -> map Z.of_nat (seq 0 (Z.to_nat n)) = zr n.
Proof. intros N. rewrite <- zr_seq. f_equal. lia. Qed.
Lemma contig_rank nt ns max off lnt : (0 < max)%nat -> 0 <= ns -> 0 <= off -> 0 <= lnt -> off + lnt <= nt -> nt < two64 -> nt * ns < two64 ->
  contig_writes nt ns max off lnt = map (fun i => (off + i, should_hold nt ns (off + i))) (zr lnt).
Proof.
  intros M N O L B T P. unfold contig_writes.
  set (f := fun i j => let t := u64 (off + Z.of_nat i + Z.of_nat j) in (t, (map (fun s => fm_sample nt ns (u64 (u64 (off + Z.of_nat i) * ns + (Z.of_nat j * ns + s)))) (zr ns), fm_key nt t, t))).
  transitivity (flat_map (fun b => map (fun j => f (fst b) (Z.to_nat j)) (zr (Z.of_nat (snd b)))) (block_list max (Z.to_nat lnt))).
  { apply flat_map_ext. intros b. apply map_ext_in. intros j J. apply in_zr_pos in J. unfold f. rewrite (Z2Nat.id j) by lia. reflexivity. }
  rewrite (block_map_rel f (fun k => (off + Z.of_nat k, should_hold nt ns (off + Z.of_nat k))) max (Z.to_nat lnt) M).
  { rewrite <- (zr_nat lnt L), map_map. reflexivity. }
  intros i j I. unfold f, should_hold. cbv zeta. assert (Z.of_nat i + Z.of_nat j < lnt) by lia. assert (0 <= Z.of_nat i /\ 0 <= Z.of_nat j) by lia.
  rewrite Nat2Z.inj_add. rewrite (u64_small (off + Z.of_nat i + Z.of_nat j)) by (unfold in_u64; lia). rewrite (u64_small (off + Z.of_nat i)) by (unfold in_u64; lia).
  rewrite <- Z.add_assoc. f_equal. f_equal. f_equal. apply map_ext_in. intros s S. apply in_zr_pos in S. f_equal.
  assert (0 <= (nt - (off + Z.of_nat i + Z.of_nat j + 1)) * ns) by (apply Z.mul_nonneg_nonneg; lia).
  assert (0 <= (off + Z.of_nat i + Z.of_nat j) * ns) by (apply Z.mul_nonneg_nonneg; lia).
  rewrite u64_small; [ring|]. unfold in_u64. replace ((off + Z.of_nat i) * ns + (Z.of_nat j * ns + s)) with ((off + Z.of_nat i + Z.of_nat j) * ns + s) by ring.
  replace (nt * ns) with ((nt - (off + Z.of_nat i + Z.of_nat j + 1)) * ns + ((off + Z.of_nat i + Z.of_nat j) * ns + ns)) in P by ring. lia.
Qed.
(** All the writes of the p ranks of a run in the normal mode, batches of [max] traces. *)
Definition made_file (nt ns p : Z) (max : nat) : list (Z * made) :=
  flat_map (fun r => match block_decomposition nt p (Z.of_nat r) with Some d => contig_writes nt ns max (global_offset d) (local_size d) | None => [] end) (seq 0 (Z.to_nat p)).
(** The file made is the same for every number of ranks and every batch size. *)
Theorem C84_contents : forall nt ns p max, in_u64 nt -> 0 <= ns -> 0 < p -> nt * ns < two64 -> (0 < max)%nat ->
  made_file nt ns p max = map (fun t => (t, should_hold nt ns t)) (zr nt).
Proof.
  intros nt ns p max IN NS P T M. unfold made_file.
  transitivity (map (fun t => (t, should_hold nt ns t)) (flat_map (fun r => map (fun i => off_of nt p (Z.of_nat r) + i) (zr (sz_of nt p (Z.of_nat r)))) (seq 0 (Z.to_nat p)))).
  - rewrite flat_map_concat_map, (flat_map_concat_map _ (seq 0 (Z.to_nat p))), concat_map, map_map. f_equal. apply map_ext_in. intros r R. apply in_seq in R.
    destruct (piece_bounds nt p (Z.of_nat r) IN P ltac:(lia)) as (pc & E & O & L & B). rewrite E.
    rewrite (block_decomposition_exact nt p (Z.of_nat r)) in E by (assumption || lia). injection E as <-. cbn [global_offset local_size] in *. destruct IN as (IN1 & IN2).
    rewrite contig_rank; try assumption; try lia. rewrite map_map. reflexivity.
  - rewrite pieces_tile by (assumption || lia). rewrite Z2Nat.id by lia. f_equal. f_equal. apply off_p; [destruct IN|]; lia.
Qed.
Print Assumptions C84_contents.
Example C84_demo : in_u64 5 /\ 5 * 3 < two64 /\ map fst (made_file 5 3 2 2) = [0; 1; 2; 3; 4] /\ map (fun w => length (fst (fst (snd w)))) (made_file 5 3 2 2) = [3; 3; 3; 3; 3]%nat.
Proof. split; [unfold in_u64, two64; lia|]. split; [reflexivity|]. split; vm_compute; reflexivity. Qed.

(** The key of a trace rises by one to the middle of the file and falls again. *)
Theorem C84_keys : forall nt t, 0 <= t < nt -> nt <= two64 / 2 -> fm_key nt t = f_of_Z (Z.min t (2 * (nt / 2) - t)).
Proof.
  intros nt t H T. unfold fm_key. assert (s64 t = t) as ->. { change (two64 / 2) with 9223372036854775808 in T. unfold s64, two64. rewrite Z.mod_small; lia. }
  f_equal. set (h := nt / 2). clearbody h. lia.
Qed.
Print Assumptions C84_keys.
Example C84_keys_demo : map (fun t => Z.min t (2 * (7 / 2) - t)) (zr 7) = [0; 1; 2; 3; 2; 1; 0].
Proof. reflexivity. Qed.

(** In the random mode the headers are right and every trace is written once, by the
    ranks' offsets. *)
Definition random_file (nt ns : Z) (max : nat) (num : list nat) : list (Z * made) :=
  flat_map (fun r => random_writes nt ns max (map Z.of_nat (random_offsets r (Z.to_nat nt) num))) (seq 0 (length num)).
Definition header (m : made) : F * Z := (snd (fst m), snd m).
Lemma random_rank nt ns max offs : (0 < max)%nat -> map (fun w => (fst w, header (snd w))) (random_writes nt ns max offs) = map (fun t => (t, header (should_hold nt ns t))) offs.
Proof.
  intros M. unfold random_writes. rewrite flat_map_concat_map, concat_map, map_map, <- flat_map_concat_map.
  set (f := fun i j => let t := nth (i + j) offs 0 in (t, (fm_key nt t, t))).
  transitivity (flat_map (fun b => map (fun j => f (fst b) (Z.to_nat j)) (zr (Z.of_nat (snd b)))) (block_list max (length offs))).
  { apply flat_map_ext. intros b. rewrite map_map. apply map_ext. intros j. reflexivity. }
  rewrite (block_map_rel f (fun k => let t := nth k offs 0 in (t, (fm_key nt t, t))) max (length offs) M) by reflexivity.
  clear. induction offs as [|o offs IH]; [reflexivity|]. cbn [length seq map nth]. f_equal. rewrite <- IH, <- seq_shift, map_map. reflexivity.
Qed.
Theorem C84_random_headers_partial : forall ns max num, (0 < max)%nat -> let nt := Z.of_nat (list_sum num) in
  Permutation (map (fun w => (fst w, header (snd w))) (random_file nt ns max num)) (map (fun t => (t, header (should_hold nt ns t))) (zr nt)).
Proof.
  intros ns max num M nt. unfold random_file. rewrite flat_map_concat_map, concat_map, map_map.
  erewrite map_ext by (intros r; apply random_rank; exact M).
  replace (map (fun r => map (fun t => (t, header (should_hold nt ns t))) (map Z.of_nat (random_offsets r (Z.to_nat nt) num))) (seq 0 (length num)))
    with (map (map (fun t => (t, header (should_hold nt ns t)))) (map (map Z.of_nat) (map (fun r => random_offsets r (Z.to_nat nt) num) (seq 0 (length num))))) by (rewrite !map_map; reflexivity).
  rewrite <- !concat_map, <- flat_map_concat_map. apply Permutation_map. unfold nt at 2. rewrite zr_seq. apply Permutation_map. unfold nt. rewrite Nat2Z.id. apply (C75_cover num).
Qed.
Print Assumptions C84_random_headers_partial.
(** With batches of one trace the samples are right as well; the memory limit makes
    batches of one only for traces of half the limit. *)
Theorem C84_random_single_partial : forall ns num, 0 <= ns -> let nt := Z.of_nat (list_sum num) in nt * ns < two64 ->
  Permutation (random_file nt ns 1 num) (map (fun t => (t, should_hold nt ns t)) (zr nt)).
Proof.
  intros ns num NS nt T. unfold random_file. destruct (C75_cover num) as (CV & _).
  assert (IN : forall r o, In r (seq 0 (length num)) -> In o (random_offsets r (list_sum num) num) -> (o < list_sum num)%nat).
  { intros r o R O. assert (In o (seq 0 (list_sum num))) as H by (eapply Permutation_in; [exact CV|]; apply in_flat_map; eauto). apply in_seq in H. lia. }
  assert (RW : forall offs, (forall o, In o offs -> 0 <= o < nt) -> random_writes nt ns 1 offs = map (fun t => (t, should_hold nt ns t)) offs).
  { intros offs B. unfold random_writes.
    transitivity (map (fun k => let t := nth k offs 0 in (t, should_hold nt ns t)) (seq 0 (length offs))).
    - rewrite <- (block_map 1 (length offs) (fun k => let t := nth k offs 0 in (t, should_hold nt ns t)) ltac:(lia)). rewrite !flat_map_concat_map. f_equal. apply map_ext_in. intros b Bb.
      destruct (block_list_spec 1 (length offs) ltac:(lia)) as (_ & _ & FA). rewrite Forall_forall in FA. specialize (FA b Bb). assert (snd b = 1)%nat as -> by lia. cbn [seq map zr]. change (zr (Z.of_nat 1)) with [0]. cbn [map]. rewrite Nat.add_0_r.
      f_equal. set (t := nth (fst b) offs 0). assert (0 <= t < nt) by (apply B, nth_In; lia). unfold should_hold. f_equal. f_equal. f_equal. apply map_ext_in. intros s S. apply in_zr_pos in S. f_equal.
      rewrite Z.mul_0_l, Z.add_0_l. apply u64_small. unfold in_u64. assert (0 <= t * ns) by (apply Z.mul_nonneg_nonneg; lia). assert (0 <= (nt - (t + 1)) * ns) by (apply Z.mul_nonneg_nonneg; lia). replace (nt * ns) with ((nt - (t + 1)) * ns + t * ns + ns) in T by ring. lia.
    - clear. induction offs as [|o offs IH]; [reflexivity|]. cbn [length seq map nth]. f_equal. rewrite <- IH, <- seq_shift, map_map. reflexivity. }
  rewrite flat_map_concat_map. rewrite (map_ext_in _ (fun r => map (fun t => (t, should_hold nt ns t)) (map Z.of_nat (random_offsets r (Z.to_nat nt) num)))).
  2: { intros r R. apply RW. intros o O. apply in_map_iff in O. destruct O as (k & <- & K). unfold nt in K. rewrite Nat2Z.id in K. specialize (IN r k R K). unfold nt. lia. }
  replace (map (fun r => map (fun t => (t, should_hold nt ns t)) (map Z.of_nat (random_offsets r (Z.to_nat nt) num))) (seq 0 (length num)))
    with (map (map (fun t => (t, should_hold nt ns t))) (map (map Z.of_nat) (map (fun r => random_offsets r (Z.to_nat nt) num) (seq 0 (length num))))) by (rewrite !map_map; reflexivity).
  rewrite <- !concat_map, <- flat_map_concat_map. apply Permutation_map. unfold nt at 2. rewrite zr_seq. apply Permutation_map. unfold nt. rewrite Nat2Z.id. exact CV.
Qed.
Print Assumptions C84_random_single_partial.
(** But a batch of several traces is filled as if its traces followed each other. *)
Theorem C84_random_refuted : exists ns max num t m, 0 < ns /\ (0 < max)%nat /\ let nt := Z.of_nat (list_sum num) in
  In (t, m) (random_file nt ns max num) /\ m <> should_hold nt ns t.
Proof.
  exists 1, 2%nat, [2; 2]%nat, 2. eexists. split; [lia|]. split; [lia|]. cbv zeta. split.
  - cbn [random_file seq length flat_map]. apply in_or_app. left. right. left. reflexivity.
  - intros H. apply (f_equal (fun m => map (fun x => fltb (f_of_Z 0) x) (fst (fst m)))) in H. vm_compute in H. discriminate H.
Qed.
Print Assumptions C84_random_refuted.
Example C84_random_demo : map fst (random_file 6 2 2 [3; 1; 2]%nat) = [0; 3; 5; 1; 2; 4].
Proof. vm_compute. reflexivity. Qed.

(** ---- C85 minmax ---- *)
Lemma uniq_in l x : In x (uniq l) <-> In x l.
Proof.
  induction l as [|a l IH]; [reflexivity|]. destruct l as [|b l]; [reflexivity|]. change (uniq (a :: b :: l)) with (if a =? b then uniq (b :: l) else a :: uniq (b :: l)).
  destruct (Z.eqb_spec a b) as [<-|]; [rewrite IH; cbn [In]; tauto|]. cbn [In] in *. rewrite IH. tauto.
Qed.
Lemma uniq_strict l : StronglySorted Z.le l -> StronglySorted Z.lt (uniq l).
Proof.
  intros S. induction S as [|a l S IH F]; [constructor|]. destruct l as [|b l]; [repeat constructor|]. change (uniq (a :: b :: l)) with (if a =? b then uniq (b :: l) else a :: uniq (b :: l)).
  destruct (Z.eqb_spec a b); [exact IH|]. constructor; [exact IH|]. apply Forall_forall. intros x X. rewrite uniq_in in X. assert (b <= x). { destruct X as [->|X]; [lia|]. inversion S as [|? ? S1 F1]; subst. rewrite Forall_forall in F1. auto. } rewrite Forall_forall in F. specialize (F b (or_introl eq_refl)). lia.
Qed.
Lemma sorted_le l : sorted Z.ltb l -> StronglySorted Z.le l.
Proof. intros S. induction S as [|a l S IH F]; constructor; [exact IH|]. eapply Forall_impl; [|exact F]. intros y Y. cbn in Y. apply Z.ltb_ge in Y. lia. Qed.
Lemma find_row_map {A} (data : Z -> A) us n : In n us -> find_row us (map data us) n = Some (data n).
Proof. induction us as [|u us IH]; intros I; [destruct I|]. cbn [find_row map]. destruct (Z.eqb_spec n u) as [->|]; [reflexivity|]. destruct I as [->|I]; [congruence|]. auto. Qed.
(** The k-th trace written is the trace of the k-th extreme, labelled with its number,
    also where several extremes fall on one trace; the list the traces are read by
    rises strictly, as the reading needs, and holds no other trace. *)
Theorem C85_extremes : forall A (srt : sorter) (data : Z -> A) nums, std_sort srt ->
  minmax_rows srt data nums = map (fun n => (Some (data n), n)) nums /\
  StronglySorted Z.lt (uniqlist srt nums) /\ (forall n, In n (uniqlist srt nums) <-> In n nums).
Proof.
  intros A srt data nums S. destruct (S Z Z.ltb nums) as (P & O).
  { split; [intros; apply Z.ltb_irrefl|]. split; intros x y z _ _ _; rewrite ?Z.ltb_lt, ?Z.ltb_ge; lia. }
  assert (I : forall n, In n (uniqlist srt nums) <-> In n nums) by (intros n; unfold uniqlist; rewrite uniq_in; split; apply Permutation_in; [apply Permutation_sym|]; exact P).
  split; [|split; [apply uniq_strict, sorted_le, O|exact I]]. unfold minmax_rows. apply map_ext_in. intros n N. f_equal. apply find_row_map, I, N.
Qed.
Print Assumptions C85_extremes.
Example C85_demo : std_sort isort /\ uniqlist isort [7; 2; 7; 0] = [0; 2; 7] /\ minmax_rows isort (fun n => 10 * n) [7; 2; 7; 0] = [(Some 70, 7); (Some 20, 2); (Some 70, 7); (Some 0, 0)].
Proof. split; [apply isort_std|]. split; reflexivity. Qed.

(** ---- C86 coordinates ---- *)
Lemma ceil_zceil n m : 0 <= n -> 0 < m -> Z.of_nat (ceil_div (Z.to_nat n) (Z.to_nat m)) = zceil n m.
Proof.
  intros N M. unfold ceil_div, zceil. rewrite Nat2Z.inj_add, Nat2Z.inj_div, !Z2Nat.id by lia.
  assert (E : Z.of_nat (Z.to_nat n mod Z.to_nat m) = n mod m) by (rewrite Nat2Z.inj_mod, !Z2Nat.id by lia; reflexivity).
  destruct (Nat.ltb_spec 0 (Z.to_nat n mod Z.to_nat m)), (Z.ltb_spec 0 (n mod m)); lia.
Qed.
Lemma loop_calls_ceil max lnt : 0 < max -> 0 <= lnt -> loop_calls max lnt = zceil lnt max.
Proof. intros M L. unfold loop_calls. destruct (block_list_spec (Z.to_nat max) (Z.to_nat lnt) ltac:(lia)) as (_ & E & _). rewrite E. apply ceil_zceil; assumption. Qed.
Lemma zceil_mono max a b : 0 < max -> 0 <= a <= b -> 0 <= zceil a max <= zceil b max.
Proof. intros M L. rewrite <- !ceil_zceil by lia. pose proof (ceil_mono (Z.to_nat max) (Z.to_nat a) (Z.to_nat b) ltac:(lia) ltac:(lia)). lia. Qed.
Lemma zceil_le max n : 0 < max -> 0 <= n -> zceil n max <= n.
Proof.
  intros M N. unfold zceil. pose proof (Z.div_mod n max ltac:(lia)). pose proof (Z.mod_pos_bound n max M). pose proof (Z.div_pos n max N M).
  assert (n / max <= max * (n / max)) by (rewrite <- (Z.mul_1_l (n / max)) at 1; apply Z.mul_le_mono_nonneg_r; lia).
  destruct (Z.ltb_spec 0 (n mod max)); lia.
Qed.
(** The first pass: every rank makes the calls the rank with most traces needs. *)
Theorem C86_first_pass : forall biggest lnt, 0 <= lnt <= biggest -> 32 * biggest + 264 <= 2147483648 ->
  exists n, gc_calls1 biggest lnt = Some n /\ gc_calls1 biggest biggest = Some n.
Proof.
  intros biggest lnt L B. assert (M : 0 < gc_max1 biggest).
  { unfold gc_max1, gc_memlim. rewrite (u64_small (32 * biggest)) by (unfold in_u64, two64; lia). rewrite u64_small by (unfold in_u64, two64; lia). pose proof (Z.div_le_mono 264 (2147483648 - 32 * biggest) 264 ltac:(lia) ltac:(lia)) as H. rewrite Z.div_same in H by lia. lia. }
  unfold gc_calls1, gc_extra. destruct (Z.eqb_spec (gc_max1 biggest) 0); [lia|]. set (m := gc_max1 biggest) in *. clearbody m.
  rewrite !loop_calls_ceil by lia. pose proof (zceil_mono m lnt biggest M L). pose proof (zceil_le m biggest M ltac:(lia)).
  rewrite !u64_small by (unfold in_u64, two64; lia). eexists. split; [reflexivity|]. f_equal. lia.
Qed.
Print Assumptions C86_first_pass.
Example C86_first_demo : gc_calls1 10000000 3 = Some 2 /\ gc_calls1 10000000 10000000 = Some 2.
Proof.
  assert (E : forall l, 0 <= l -> gc_calls1 10000000 l = Some (zceil l (gc_max1 10000000) + gc_extra 10000000 l)) by (intros l L; unfold gc_calls1; destruct (Z.eqb_spec (gc_max1 10000000) 0) as [H|]; [vm_compute in H; discriminate H|]; rewrite loop_calls_ceil; [reflexivity|reflexivity|exact L]).
  rewrite !E by lia. split; vm_compute; reflexivity.
Qed.
(** The second pass has smaller batches, but the number of extra calls is that of the
    first: the ranks of one run disagree on the number of collective reads. *)
Theorem C86_second_pass_refuted : forall ixline, exists nt d0 d1 a b,
  block_decomposition nt 2 0 = Some d0 /\ block_decomposition nt 2 1 = Some d1 /\
  let biggest := Z.max (local_size d0) (local_size d1) in
  gc_calls2 ixline biggest (local_size d0) = Some a /\ gc_calls2 ixline biggest (local_size d1) = Some b /\ a <> b.
Proof.
  assert (E : forall ix B l a, 0 <= l -> (gc_max1 B =? 0) = false -> (0 <? gc_max2 ix B) = true -> zceil l (gc_max2 ix B) + gc_extra B l = a -> gc_calls2 ix B l = Some a).
  { intros ix B l a L N M <-. unfold gc_calls2. rewrite N, loop_calls_ceil; [reflexivity|apply Z.ltb_lt, M|exact L]. }
  intros [|].
  - exists 12201611, (mkPiece 0 6100806), (mkPiece 6100806 6100805), 2, 1. split; [vm_compute; reflexivity|]. split; [vm_compute; reflexivity|]. cbv zeta. cbn [local_size]. change (Z.max 6100806 6100805) with 6100806.
    split; [apply E; [lia| | |]; vm_compute; reflexivity|]. split; [apply E; [lia| | |]; vm_compute; reflexivity|]. lia.
  - exists 12782641, (mkPiece 0 6391321), (mkPiece 6391321 6391320), 2, 1. split; [vm_compute; reflexivity|]. split; [vm_compute; reflexivity|]. cbv zeta. cbn [local_size]. change (Z.max 6391321 6391320) with 6391321.
    split; [apply E; [lia| | |]; vm_compute; reflexivity|]. split; [apply E; [lia| | |]; vm_compute; reflexivity|]. lia.
Qed.
Print Assumptions C86_second_pass_refuted.
(** The memory limit is a difference of unsigned numbers: it is zero, and divided by,
    for one size, and meaningless (more than the 2 GB meant) for every larger one. *)
Theorem C86_limit_refuted : gc_calls1 67108864 67108864 = None /\
  forall biggest, 67108864 < biggest < 576460752303423488 -> 2147483648 < gc_memlim biggest.
Proof.
  split; [vm_compute; reflexivity|]. intros b B. unfold gc_memlim. rewrite (u64_small (32 * b)) by (unfold in_u64, two64; lia).
  assert (W : u64 (2147483648 - 32 * b) = two64 + 2147483648 - 32 * b). { unfold u64. rewrite <- (Z.mod_unique (2147483648 - 32 * b) two64 (-1) (two64 + 2147483648 - 32 * b)); [reflexivity|left; unfold two64; lia|ring]. }
  rewrite W. unfold two64. lia.
Qed.
Print Assumptions C86_limit_refuted.
(** Every coordinate entry is filled once, from the trace at its place in the sorted
    list, with that trace's number beside it; each read call has a rising list. *)
Theorem C86_coordinates : forall srt max trlist, std_sort srt -> (0 < max)%nat -> let passes := map (gc_block srt trlist) (block_list max (length trlist)) in
  Permutation (flat_map snd passes) (map (fun k => (k, nth k trlist 0, nth k trlist 0)) (seq 0 (length trlist))) /\
  Forall (fun ps => StronglySorted Z.le (fst ps)) passes.
Proof.
  intros srt max trlist S M passes. unfold passes.
  assert (NTH : forall b, (fst b + snd b <= length trlist)%nat -> forall o, (o < snd b)%nat -> nth o (firstn (snd b) (skipn (fst b) trlist)) 0 = nth (fst b + o) trlist 0).
  { clear. intros (i, n) L o O. cbn [fst snd] in *. revert trlist L. induction i as [|i IH]; intros l L.
    - cbn [skipn Nat.add]. revert n o O L. induction l as [|a l IHl]; intros n o O L; [destruct n; [lia|cbn in L; lia]|]. destruct n; [lia|]. destruct o; [reflexivity|]. cbn [firstn nth]. apply IHl; cbn [length] in L; lia.
    - destruct l as [|a l]; [cbn in L; lia|]. cbn [skipn Nat.add nth]. apply IH. cbn [length] in L. lia. }
  destruct (block_list_spec max (length trlist) M) as (E & _ & FA). split.
  - rewrite flat_map_concat_map, map_map, <- flat_map_concat_map. rewrite <- (block_map max (length trlist) (fun k => (k, nth k trlist 0, nth k trlist 0)) M).
    clear E. induction FA as [|b bl FB FA IH]; [constructor|]. cbn [flat_map]. apply Permutation_app; [|exact IH]. unfold gc_block. cbn [snd].
    set (part := firstn (snd b) (skipn (fst b) trlist)). destruct (C51_getSortIndex srt part S) as (P & _). set (orig := getSortIndex srt part) in *. clearbody orig.
    assert (LP : length part = snd b) by (unfold part; rewrite firstn_length, skipn_length; lia). rewrite LP in P.
    replace (List.combine orig (map (fun o => nth (fst b + o) trlist 0) orig)) with (map (fun o => (o, nth (fst b + o) trlist 0)) orig) by (clear; induction orig as [|o l IH]; [reflexivity|]; cbn [map List.combine]; f_equal; exact IH).
    rewrite map_map. cbn [fst snd]. rewrite <- (seq_shift_map (fst b) (snd b)), map_map. apply Permutation_map, Permutation_sym, P.
  - apply Forall_forall. intros ps PS. apply in_map_iff in PS. destruct PS as (b & <- & B). rewrite Forall_forall in FA. specialize (FA b B). unfold gc_block. cbn [fst].
    set (part := firstn (snd b) (skipn (fst b) trlist)). destruct (C51_getSortIndex srt part S) as (P & SS).
    assert (LP : length part = snd b) by (unfold part; rewrite firstn_length, skipn_length; lia). rewrite LP in P.
    erewrite map_ext_in; [exact SS|]. intros o O. symmetry. apply NTH; [lia|]. assert (In o (seq 0 (snd b))) as H by (eapply Permutation_in; [apply Permutation_sym, P|exact O]). apply in_seq in H. lia.
Qed.
Print Assumptions C86_coordinates.
Example C86_demo : std_sort isort /\ map (gc_block isort [5; 1; 4; 0; 2]) (block_list 3 5) = [([1; 4; 5], [(1%nat, 1, 1); (2%nat, 4, 4); (0%nat, 5, 5)]); ([0; 2], [(3%nat, 0, 0); (4%nat, 2, 2)])].
Proof. split; [apply isort_std|reflexivity]. Qed.

(** ---- C87 writing the matches ---- *)
(** All the writes of a file, from the ranks' lists. *)
Definition written {A} (max : nat) (ls : list (list A)) : list (nat * A) := concat (map (fun r => concat (out_calls max ls r)) (seq 0 (length ls))).
Lemma combine_app' {A B} (a a' : list A) (b b' : list B) : length a = length b -> List.combine (a ++ a') (b ++ b') = List.combine a b ++ List.combine a' b'.
Proof. revert b. induction a as [|x a IH]; intros [|y b] L; try discriminate; [reflexivity|]. cbn [app List.combine]. f_equal. apply IH. cbn in L. lia. Qed.
Lemma skip_skip {A} (l : list A) a b : skipn b (skipn a l) = skipn (a + b) l.
Proof. revert l. induction a as [|a IH]; intros l; [reflexivity|]. destruct l as [|x l]; [apply skipn_nil|]. cbn [skipn Nat.add]. apply IH. Qed.
Lemma rank_calls {A} max (ls : list (list A)) r : (0 < max)%nat -> concat (out_calls max ls r) = List.combine (seq (out_offset ls r) (length (nth r ls []))) (nth r ls []).
Proof.
  intros M. unfold out_calls. rewrite concat_app, concat_repeat_nil, app_nil_r. set (l := nth r ls []). set (off := out_offset ls r). clearbody l off.
  destruct (block_list_spec max (length l) M) as (E & _ & FA).
  assert (G : forall bl a, flat_map (fun b => seq (fst b) (snd b)) bl = seq a (length l - a) -> (a <= length l)%nat -> Forall (fun b => (0 < snd b <= max)%nat /\ (fst b + snd b <= length l)%nat) bl ->
    concat (map (fun b => List.combine (seq (off + fst b) (snd b)) (firstn (snd b) (skipn (fst b) l))) bl) = List.combine (seq (off + a) (length l - a)) (skipn a l)).
  { induction bl as [|b bl IH]; intros a EQ L F.
    - cbn [flat_map] in EQ. destruct (length l - a)%nat; [reflexivity|discriminate EQ].
    - inversion F as [|? ? (F1 & F2) F3]; subst. cbn [flat_map] in EQ. assert (AB : fst b = a /\ (snd b <= length l - a)%nat).
      { apply (f_equal (@length nat)) in EQ as LEN. rewrite app_length, !seq_length in LEN. destruct (snd b) as [|n]; [lia|]. destruct (length l - a)%nat; [lia|]. injection EQ as -> _. split; [reflexivity|lia]. }
      destruct AB as (AE & AB). rewrite AE in *. assert (EQ2 : flat_map (fun b => seq (fst b) (snd b)) bl = seq (a + snd b) (length l - (a + snd b))).
      { replace (length l - a)%nat with (snd b + (length l - (a + snd b)))%nat in EQ by lia. rewrite seq_app in EQ. apply app_inv_head in EQ. exact EQ. }
      cbn [map concat]. rewrite (IH (a + snd b)%nat EQ2 ltac:(lia) F3). replace (length l - a)%nat with (snd b + (length l - (a + snd b)))%nat by lia. rewrite seq_app.
      assert (SK : skipn a l = firstn (snd b) (skipn (fst b) l) ++ skipn (a + snd b) l) by (rewrite AE, <- (firstn_skipn (snd b) (skipn a l)) at 1; f_equal; apply skip_skip).
      rewrite SK, combine_app' by (rewrite seq_length, firstn_length, skipn_length, AE; lia). rewrite AE. f_equal. f_equal. f_equal. lia. }
  rewrite (G (block_list max (length l)) 0%nat); [|rewrite E, Nat.sub_0_r; reflexivity|lia|exact FA]. cbn [skipn]. rewrite Nat.sub_0_r, Nat.add_0_r. reflexivity.
Qed.
Lemma nsum_concat {A} (ls : list (list A)) : Base.nsum (map (@length A) ls) = length (concat ls).
Proof. induction ls as [|l ls IH]; [reflexivity|]. cbn [map concat]. rewrite app_length, <- IH. reflexivity. Qed.
Lemma written_all {A} max (ls : list (list A)) : (0 < max)%nat -> written max ls = List.combine (seq 0 (length (concat ls))) (concat ls).
Proof.
  intros M. unfold written.
  assert (G : forall m, (m <= length ls)%nat -> concat (map (fun r => concat (out_calls max ls r)) (seq 0 m)) = List.combine (seq 0 (length (concat (firstn m ls)))) (concat (firstn m ls))).
  { induction m as [|m IH]; intros L; [reflexivity|]. rewrite seq_S, map_app, concat_app, IH by lia. cbn [map concat Nat.add]. rewrite app_nil_r, rank_calls by exact M. unfold out_offset. rewrite nsum_concat.
    assert (F : firstn (S m) ls = firstn m ls ++ [nth m ls []]). { clear - L. revert m L. induction ls as [|x l IH]; intros m L; [cbn in L; lia|]. destruct m as [|m]; [reflexivity|]. cbn [firstn nth app]. f_equal. apply IH. cbn in L. lia. }
    rewrite F, concat_app. cbn [concat]. rewrite app_nil_r, app_length, seq_app, combine_app' by (rewrite seq_length; reflexivity). reflexivity. }
  rewrite (G (length ls) (le_n _)), firstn_all. reflexivity.
Qed.
(** The matches of the ranks, in rank order, that are near enough. *)
Definition pairs (dsrmax : F) (mss : list (list match_)) : list match_ := filter (fun m => fleb (snd m) dsrmax) (concat mss).
(** The k-th trace of the first output and the k-th trace of the second are a match,
    and the pairs written are exactly those within the limit, each once. *)
Theorem C87_outputs_pair_up : forall max1 max2 dsrmax mss, (0 < max1)%nat -> (0 < max2)%nat ->
  let ks := map (kept dsrmax) mss in
  written max1 (map (map (fun m => fst (fst m))) ks) = List.combine (seq 0 (length (pairs dsrmax mss))) (map (fun m => fst (fst m)) (pairs dsrmax mss)) /\
  written max2 (map (map (fun m => snd (fst m))) ks) = List.combine (seq 0 (length (pairs dsrmax mss))) (map (fun m => snd (fst m)) (pairs dsrmax mss)).
Proof.
  intros max1 max2 d mss M1 M2 ks. assert (E : concat ks = pairs d mss). { unfold ks, pairs. clear. induction mss as [|m ms IH]; [reflexivity|]. cbn [map concat]. rewrite filter_app, IH. reflexivity. }
  rewrite !written_all by assumption. rewrite <- E, <- !concat_map, !map_length. split; reflexivity.
Qed.
Print Assumptions C87_outputs_pair_up.
(** Every rank makes the same number of write calls. *)
Theorem C87_calls_agree : forall A max (ls : list (list A)) r s, (0 < max)%nat -> (r < length ls)%nat -> (s < length ls)%nat ->
  length (out_calls max ls r) = length (out_calls max ls s).
Proof.
  assert (G : forall A max (ls : list (list A)) r, (0 < max)%nat -> (r < length ls)%nat -> length (out_calls max ls r) = ceil_div (out_biggest ls) max).
  { intros A max ls r M R. unfold out_calls, extra_blocks. rewrite app_length, map_length, repeat_length. destruct (block_list_spec max (length (nth r ls [])) M) as (_ & -> & _).
    assert (L : (length (nth r ls []) <= out_biggest ls)%nat).
    { unfold out_biggest. assert (GE : forall l a, (a <= fold_left Nat.max l a)%nat) by (induction l as [|x l IH]; intros a; cbn [fold_left]; [lia|specialize (IH (Nat.max a x)); lia]).
      assert (GG : forall l a x, In x l -> (x <= fold_left Nat.max l a)%nat). { induction l as [|y l IH]; intros a x I; [destruct I|]. cbn [fold_left]. destruct I as [->|I]; [specialize (GE l (Nat.max a x)); lia|apply IH, I]. }
      apply GG, in_map, nth_In, R. }
    pose proof (ceil_mono max _ _ M L). lia. }
  intros. rewrite !G by assumption. reflexivity.
Qed.
Print Assumptions C87_calls_agree.
(** The batch size is never zero for the sample counts SEG-Y allows. *)
Theorem C87_batch : forall ns ext, 0 <= ns <= 65535 -> 0 <= ext <= 240 -> 0 < out_max ns ext.
Proof.
  intros ns ext N E. unfold out_max. rewrite u64_small by (unfold in_u64, two64; lia). apply Z.div_str_pos. lia.
Qed.
Print Assumptions C87_batch.
Example C87_demo : let mss := [[(4, 9, f_of_Z 1); (2, 7, f_of_Z 8)]; []; [(0, 9, f_of_Z 3); (1, 6, f_of_Z 2); (3, 5, f_of_Z 0)]] in
  map (map (fun m => fst (fst m))) (map (kept (f_of_Z 2)) mss) = [[4]; []; [1; 3]] /\ map fst (pairs (f_of_Z 2) mss) = [(4, 9); (1, 6); (3, 5)] /\
  written 1 [[4]; []; [1; 3]] = [(0%nat, 4); (1%nat, 1); (2%nat, 3)].
Proof. split; [|split]; vm_compute; reflexivity. Qed.
