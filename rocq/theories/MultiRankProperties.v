(** C118 for several processes. *)
From Coq Require Import Reals Lra Permutation Sorted.
From Flocq Require Import Core IEEE754.BinarySingleNaN.
From Verif Require Import Base DecompModel DecompSpec DecompProofs NumEncModel NumEncSpec NumEncProofs CharEncModel CharEncProofs LayoutModel LayoutProofs DataIOModel DataIOProofs
  RuleModel RuleProofs DoubleModel ParamModel ParamProofs HeaderProofs ScalarProofs FileSpec FileModel FileProofs WriteSpec WriteProofs RuleProperties ParamProperties ReadProofs OpenProofs FileProperties TraceProperties.
From Verif Require Import SortSpec SortModel SortProofs CompProofs SortProperties FlowModel FlowProofs FlowProperties CopySpec CopyProofs CopyProperties ExampleModel ExampleProofs SetFileModel SetFileSpec SetFileProofs SetOutProofs SetFileProperties SetSortModel SetSortSpec SetSortProofs SetSortProperties MultiSortSpec MultiSortProofs MultiSortProperties MultiRankProofs.
From Verif Require ExtremeProofs.
Import ListNotations.
Open Scope Z_scope.


Lemma off_more n m p r : 0 <= n <= m -> 0 < p -> 0 <= r -> off_of n p r <= off_of m p r.
Proof.
  intros N P R. unfold off_of. pose proof (Z.div_mod n p ltac:(lia)) as E1. pose proof (Z.div_mod m p ltac:(lia)) as E2. pose proof (Z.mod_pos_bound n p P) as B1. pose proof (Z.mod_pos_bound m p P) as B2.
  assert (Q : n / p <= m / p) by (apply Z.div_le_mono; lia). destruct (Z.eq_dec (n / p) (m / p)) as [E|E].
  - rewrite E in *. lia.
  - assert (r * (n / p + 1) <= r * (m / p)) by (apply Z.mul_le_mono_nonneg_l; lia). rewrite Z.mul_add_distr_l, Z.mul_1_r in *. lia.
Qed.
(** The numbers on one rank increase if the offsets of its pieces do not decrease. *)
Lemma numbers_increase off nf lo hi : forall pcs loff c, Forall (fun pc => 0 <= local_size pc /\ lo <= global_offset pc <= hi) pcs -> StronglySorted Z.le (map global_offset pcs) ->
  StronglySorted Z.lt (map fst (cache_numbers off loff c nf pcs)) /\
  (forall d, Forall (fun pc => d <= global_offset pc) pcs -> forall x, In x (map fst (cache_numbers off loff c nf pcs)) -> off + loff + d <= x) /\ (forall x, In x (map fst (cache_numbers off loff c nf pcs)) -> off + loff + lo <= x < off + loff + zsum (map local_size pcs) + hi).
Proof.
  induction pcs as [|pc pcs IH]; intros loff c F S; [split; [constructor|]; split; intros; contradiction|]. inversion F as [|? ? F1 F2]; subst. cbn [map] in S. inversion S as [|? ? S1 S2]; subst.
  cbn [cache_numbers]. rewrite map_app, map_map. cbn [fst]. destruct (IH (loff + local_size pc) (c + 1) F2 S1) as (I1 & I2 & I3).
  assert (S2' : Forall (fun q => global_offset pc <= global_offset q) pcs) by (apply Forall_forall; intros q Q; apply (proj1 (Forall_forall _ _) S2), in_map, Q).
  assert (Z0 : 0 <= zsum (map local_size pcs)). { clear -F2. induction F2 as [|q l Q F IH]; [cbn; lia|]. cbn [map]. unfold zsum in *. cbn [fold_right]. lia. }
  change (zsum (map local_size (pc :: pcs))) with (local_size pc + zsum (map local_size pcs)).
  split; [|split].
  - apply strict_app; [|exact I1|].
    + rewrite (map_ext _ (fun i => off + loff + global_offset pc + i)) by (intros; lia). apply strict_seq.
    + intros x y X Y. apply in_map_iff in X. destruct X as (i & <- & X). apply in_zr in X. specialize (I2 _ S2' y Y). lia.
  - intros d D x X. inversion D as [|? ? D1 D2]; subst. apply in_app_or in X. destruct X as [X|X]; [apply in_map_iff in X; destruct X as (i & <- & X); apply in_zr in X; lia|]. specialize (I2 d D2 x X). lia.
  - intros x X. apply in_app_or in X. destruct X as [X|X]; [apply in_map_iff in X; destruct X as (i & <- & X); apply in_zr in X; lia|]. specialize (I3 x X). lia.
Qed.
Lemma all_strict (d : nat -> list Z) : forall p, (forall r, (r < p)%nat -> StronglySorted Z.lt (d r)) -> (forall r s x y, (r < s < p)%nat -> In x (d r) -> In y (d s) -> x < y) -> StronglySorted Z.lt (all p d).
Proof.
  induction p as [|p IH]; intros A B; [constructor|]. rewrite all_S. apply strict_app; [apply IH; [intros; apply A; lia|intros r s x y R; apply B; lia]|apply A; lia|].
  intros x y X Y. apply all_in in X. destruct X as (r & R & X). apply (B r p x y); [lia|exact X|exact Y].
Qed.
Lemma steps p nts : (0 < p)%nat -> Forall in_u64 nts -> (forall r, (r < p)%nat -> StronglySorted Z.le (map (fun n => off_of n (Z.of_nat p) (Z.of_nat r)) nts)) ->
  (forall r n m, (S r < p)%nat -> In n nts -> In m nts -> off_of n (Z.of_nat p) (Z.of_nat r) <= off_of m (Z.of_nat p) (Z.of_nat (S r))) -> StronglySorted Z.lt (map fst (all p (cache p nts))).
Proof.
  intros P U IN AC. destruct nts as [|n0 nts0] eqn:EN.
  { assert (E : forall q, map fst (all q (cache p [])) = []) by (induction q as [|q IH]; [reflexivity|]; rewrite all_S, map_app, IH; reflexivity). rewrite E. constructor. }
  rewrite <- EN in *. assert (N0 : In n0 nts) by (rewrite EN; left; reflexivity). clear EN.
  set (pcs := fun r => map (fun n => mkPiece (off_of n (Z.of_nat p) (Z.of_nat r)) (sz_of n (Z.of_nat p) (Z.of_nat r))) nts).
  assert (PC : forall r, (r < p)%nat -> ilsts (Z.of_nat p) (Z.of_nat r) nts = pcs r).
  { intros r R. unfold ilsts, pcs. apply map_ext_in. intros n N. unfold ilst. rewrite block_decomposition_exact by (first [apply (proj1 (Forall_forall _ _) U n N)|lia]). reflexivity. }
  assert (NN : forall n, In n nts -> 0 <= n) by (intros n N; apply (proj1 (Forall_forall _ _) U n N)).
  set (o := fun r => zsum (map (fun q => cache_lnt (Z.of_nat p) (Z.of_nat q) nts) (seq 0 r))).
  set (M := fold_right Z.max 0 nts).
  assert (BD : forall r, (r < p)%nat -> exists lo hi, (forall n, In n nts -> lo <= off_of n (Z.of_nat p) (Z.of_nat r) <= hi) /\ (exists n, In n nts /\ off_of n (Z.of_nat p) (Z.of_nat r) = lo) /\ (exists n, In n nts /\ off_of n (Z.of_nat p) (Z.of_nat r) = hi)).
  { intros r R. specialize (IN r R). clear -IN N0. set (f := fun n => off_of n (Z.of_nat p) (Z.of_nat r)) in *.
    assert (H : forall l, l <> [] -> exists lo hi, (forall n : Z, In n l -> lo <= f n <= hi) /\ (exists n, In n l /\ f n = lo) /\ (exists n, In n l /\ f n = hi)).
    { induction l as [|x l IH]; intros E; [contradiction|]. destruct l as [|y l]; [exists (f x), (f x); split; [intros n [<-|[]]; lia|]; split; exists x; split; try reflexivity; left; reflexivity|].
      destruct (IH ltac:(discriminate)) as (lo & hi & H & (a & A1 & A2) & (b & B1 & B2)). exists (Z.min (f x) lo), (Z.max (f x) hi). split; [intros n [<-|N]; [lia|specialize (H n N); lia]|]. split.
      - destruct (Z.min_spec (f x) lo) as [(_ & ->)|(_ & ->)]; [exists x; split; [left; reflexivity|reflexivity]|exists a; split; [right; exact A1|exact A2]].
      - destruct (Z.max_spec (f x) hi) as [(_ & ->)|(_ & ->)]; [exists b; split; [right; exact B1|exact B2]|exists x; split; [left; reflexivity|reflexivity]]. }
    apply H. intros ->. contradiction. }
  assert (RK : forall r lo hi, (r < p)%nat -> (forall n, In n nts -> lo <= off_of n (Z.of_nat p) (Z.of_nat r) <= hi) -> StronglySorted Z.lt (map fst (cache p nts r)) /\ forall x, In x (map fst (cache p nts r)) -> o r + lo <= x < o (S r) + hi).
  { intros r lo hi R LH. unfold cache. fold (o r). destruct (numbers_increase (o r) (Z.of_nat (length nts)) lo hi (ilsts (Z.of_nat p) (Z.of_nat r) nts) 0 0) as (A & _ & B).
    - rewrite PC by exact R. apply Forall_forall. intros pc I. unfold pcs in I. apply in_map_iff in I. destruct I as (n & <- & N). cbn [local_size global_offset]. split; [apply m_size; [exact R|apply NN, N]|apply LH, N].
    - rewrite PC by exact R. unfold pcs. rewrite map_map. cbn [global_offset]. apply IN, R.
    - split; [exact A|]. intros x X. specialize (B x X). assert (OS : o (S r) = o r + zsum (map local_size (ilsts (Z.of_nat p) (Z.of_nat r) nts))); [|rewrite OS; lia].
      unfold o. rewrite seq_S, map_app, zsum_app. cbn [map Nat.add]. change (zsum [cache_lnt (Z.of_nat p) (Z.of_nat r) nts]) with (cache_lnt (Z.of_nat p) (Z.of_nat r) nts + 0). rewrite Z.add_0_r. reflexivity. }
  rewrite <- all_map. apply all_strict.
  - intros r R. destruct (BD r R) as (lo & hi & LH & _). apply (RK r lo hi R LH).
  - intros r s x y RS X Y. destruct (BD r ltac:(lia)) as (lo & hi & LH & _ & (n & N & EN)). destruct (BD s ltac:(lia)) as (lo' & hi' & LH' & (m & M' & EM) & _).
    destruct (RK r lo hi ltac:(lia) LH) as (_ & RX). destruct (RK s lo' hi' ltac:(lia) LH') as (_ & RY). specialize (RX x X). specialize (RY y Y).
    assert (A1 : hi <= lo'). { rewrite <- EN, <- EM. specialize (AC r n m ltac:(lia) N M'). assert (off_of m (Z.of_nat p) (Z.of_nat (S r)) <= off_of m (Z.of_nat p) (Z.of_nat s)) by (apply off_mono; [apply NN, M'|lia|lia]). lia. }
    assert (LP : forall k, (k < p)%nat -> 0 <= cache_lnt (Z.of_nat p) (Z.of_nat k) nts).
    { intros k K. unfold cache_lnt. rewrite PC by exact K. unfold pcs. rewrite map_map. cbn [local_size].
      assert (G : forall l, (forall n, In n l -> 0 <= n) -> 0 <= zsum (map (fun n => sz_of n (Z.of_nat p) (Z.of_nat k)) l)); [|apply G, NN].
      induction l as [|n' l IHl]; intros GN; [cbn; lia|]. cbn [map]. unfold zsum in *. cbn [fold_right]. specialize (IHl (fun n I => GN n (or_intror I))). pose proof (m_size p k n' K (GN n' (or_introl eq_refl))). lia. }
    assert (OS : forall k, o (S k) = o k + cache_lnt (Z.of_nat p) (Z.of_nat k) nts).
    { intros k. unfold o. rewrite seq_S, map_app, zsum_app. cbn [map Nat.add]. change (zsum [cache_lnt (Z.of_nat p) (Z.of_nat k) nts]) with (cache_lnt (Z.of_nat p) (Z.of_nat k) nts + 0). rewrite Z.add_0_r. reflexivity. }
    assert (A2 : o (S r) <= o s).
    { assert (H : forall k, (S r + k < p)%nat -> o (S r) <= o (S r + k)%nat).
      { induction k as [|k IH]; intros K; [rewrite Nat.add_0_r; lia|]. specialize (IH ltac:(lia)). replace (S r + S k)%nat with (S (S r + k)) by lia. rewrite (OS (S r + k)%nat). specialize (LP (S r + k)%nat ltac:(lia)). lia. }
      specialize (H (s - S r)%nat ltac:(lia)). replace (S r + (s - S r))%nat with s in H by lia. exact H. }
    clearbody o. clear -RX RY A1 A2.
    lia.
Qed.
(** When the numbers the sort works with increase from trace to trace: one process; two
    processes and files listed from the smallest to the largest; files of the same size. *)
Definition in_step (p : nat) (nts : list Z) : Prop :=
  p = 1%nat \/ (p = 2%nat /\ StronglySorted Z.le nts) \/ (exists n, forall m, In m nts -> m = n).
Lemma in_step_strict p nts : (0 < p)%nat -> Forall in_u64 nts -> in_step p nts -> StronglySorted Z.lt (map fst (all p (cache p nts))).
Proof.
  intros P U ST. assert (NN : forall n, In n nts -> 0 <= n) by (intros n N; apply (proj1 (Forall_forall _ _) U n N)).
  assert (SM : forall r, (forall n m, In n nts -> In m nts -> off_of n (Z.of_nat p) (Z.of_nat r) <= off_of m (Z.of_nat p) (Z.of_nat r)) -> StronglySorted Z.le (map (fun n => off_of n (Z.of_nat p) (Z.of_nat r)) nts)).
  { intros r. clear. induction nts as [|n l IH]; intros H; [constructor|]. cbn [map]. constructor; [apply IH; intros; apply H; right; assumption|]. apply Forall_forall. intros x X. apply in_map_iff in X. destruct X as (m & <- & M). apply H; [left; reflexivity|right; exact M]. }
  destruct ST as [->|[(-> & S)|(n & E)]]; apply steps; try assumption.
  - intros r R. apply SM. intros n m N M. assert (r = 0%nat) as -> by lia. change (Z.of_nat 0) with 0. rewrite !off_0 by (first [apply NN; assumption|lia]). lia.
  - intros; lia.
  - intros r R. clear SM. induction S as [|n l S IH F]; [constructor|]. inversion U; subst. cbn [map]. constructor; [apply IH; [assumption|intros; apply NN; right; assumption]|].
    apply Forall_forall. intros x X. apply in_map_iff in X. destruct X as (m & <- & M). apply off_more; [|lia|lia]. rewrite Forall_forall in F. specialize (F m M). specialize (NN n (or_introl eq_refl)). lia.
  - intros r n m R N M. assert (r = 0%nat) as -> by lia. change (Z.of_nat 0) with 0. rewrite off_0 by (first [apply NN; assumption|lia]). rewrite <- (off_0 m (Z.of_nat 2)) by (first [apply NN; assumption|lia]). apply off_mono; [apply NN, M|lia|lia].
  - intros r R. apply SM. intros a b A B. rewrite (E a A), (E b B). lia.
  - intros r a b R A B. rewrite (E a A), (E b B). apply off_mono; [rewrite <- (E a A); apply NN, A|lia|lia].
Qed.

(** Several files sorted together on p processes with at least four traces each, when the
    files are in step: as for one process. The sort ends, every rank makes the same number
    of calls, and however the calls of the ranks interleave the file written has the traces
    in order. Missing: files that are not in step, where it is false
    (C118_two_processes_refuted, C118_three_processes_refuted). *)
Theorem C118_in_step_partial : forall maxSize ns inc key fl p type srt outmsg sizes0 (sizes : nat -> nat -> nat -> list Z),
  let g := group_members key fl in let nts := map (fun x => r_nt (fst x)) g in let nt := zsum nts in
  let hdr (x : nat * Z) := disk_header (file_of g (fst x)) ns (snd x) in let number (x : nat * Z) := snd x * Z.of_nat (length g) + Z.of_nat (fst x) in
  3600 <= maxSize -> 2 * (240 + 4 * ns) <= maxSize -> 0 <= ns <= 32767 -> (0 < p)%nat -> in_step p nts -> 4 <= zsum (map (fun n => n / Z.of_nat p) nts) -> fits nt ns -> Z.of_nat (length g) * nt <= 2 ^ 63 ->
  Forall (fun x => in_u64 (r_nt (fst (snd x)))) fl -> (forall k, gsum k (map (fun x => (fst x, r_nt (fst (snd x)))) fl) < two64) ->
  (forall x, In x g -> set_input maxSize ns inc x) -> std_sort srt -> 35 <= type <= 43 ->
  let sort fuel fuel2 := sort_set fuel fuel2 maxSize sizes0 srt type g (group_files key fl p) p in
  (exists n, forall fuel, (n <= fuel)%nat -> exists n2, forall fuel2, (n2 <= fuel2)%nat -> exists fds, sort fuel fuel2 = Some fds) /\
  forall fuel fuel2 fds, sort fuel fuel2 = Some fds ->
  let run r := set_calls maxSize (sizes r) sort_set_rule srt outmsg g fds p r in
  (exists c, forall r, (r < p)%nat -> exists ws, run r = Some ws /\ length ws = c) /\
  exists perm, Permutation perm (every_trace nts) /\ NoDup perm /\ (forall k i, In (k, i) perm <-> (k < length g)%nat /\ 0 <= i < r_nt (fst (nth k g no_input))) /\
  StronglySorted (fun a b => ~ lex (keys type (trace_geo g ns b)) (keys type (trace_geo g ns a))) perm /\
  (type <= 41 -> StronglySorted (fun a b => (lead type (hdr a) <= lead type (hdr b))%R) perm) /\
  (In type [35; 37; 39; 41; 43] -> (exists s, forall x, In x perm -> int16_at (hdr x) 71 = s /\ 0 <= int32_at (hdr x) 37) ->
     StronglySorted (fun a b => lex (header_keys type (hdr a) (number a)) (header_keys type (hdr b) (number b))) perm) /\
  forall h f0 maxSize' sizes', file_bytes f0 -> 3600 <= maxSize' -> (forall x, In x h -> (fst x < p)%nat) -> (forall r, (r < p)%nat -> run r = Some (rank_ops h r)) ->
  exists f' rd', write_file maxSize p h f0 = Some f' /\ fsize f' = 3600 + nt * (240 + 4 * ns) /\
  open_file maxSize' sizes' f' = Some rd' /\ r_ns rd' = ns /\ r_nt rd' = nt /\ r_inc rd' = inc /\
  forall b, 0 <= b < nt -> let x := nth (Z.to_nat b) perm (0%nat, 0) in sorted_copy (file_of g (fst x)) (snd x) f' b ns.
Proof.
  intros maxSize ns inc key fl p type srt outmsg sizes0 sizes g nts nt hdr number M1 M2 NS P ST FOUR F SM U B GI SRT T sort.
  assert (NN : Forall (fun n => 0 <= n) nts) by apply (nts_pos key fl U).
  assert (PR : (forall r, (r < p)%nat -> zsum (map (fun n => n / Z.of_nat p) nts) <= zsum (map (fun n => sz_of n (Z.of_nat p) (Z.of_nat r)) nts)) /\ zsum (map (fun n => n / Z.of_nat p) nts) <= nt).
  { unfold nt. clear -NN P. split; [intros r R|]; (induction NN as [|n l N F IH]; [cbn; lia|]; cbn [map]; unfold zsum in *; cbn [fold_right]).
    - assert (n / Z.of_nat p <= sz_of n (Z.of_nat p) (Z.of_nat r)); [|lia]. unfold sz_of. destruct (_ <? _); lia.
    - assert (n / Z.of_nat p <= n); [|lia]. apply Z.div_le_upper_bound; [lia|]. assert (1 * n <= Z.of_nat p * n) by (apply Z.mul_le_mono_nonneg_r; lia). lia. }
  destruct PR as (PR & PT). assert (NT : 0 < nt) by (clear -FOUR PT; lia).
  pose proof (m_u64 key fl U) as U64. change (Forall in_u64 nts) in U64. pose proof (in_step_strict p nts P U64 ST) as STEP.
  assert (F4 : forall r, (r < p)%nat -> (4 <= length (cache p nts r))%nat). { intros r R. pose proof (m_cache_len key fl p P U B r R) as Q. unfold m_lens in Q. specialize (PR r R). change (Z.of_nat (length (cache p nts r)) = zsum (map (fun n => sz_of n (Z.of_nat p) (Z.of_nat r)) nts)) in Q. clear -Q PR FOUR. lia. }
  split; [apply (m_defined maxSize ns inc key fl p M1 M2 NS P U B GI NT F SM STEP F4 sizes0 srt type SRT T)|].
  intros fuel fuel2 fds S run. destruct (m_result maxSize ns inc key fl p M1 M2 NS P U B GI NT F SM STEP F4 fuel fuel2 sizes0 srt type fds SRT T S) as (perm & PM & SS & PL).
  fold g in PM, SS, PL. fold nts in PM, PL. fold nt in PL. set (src := fun b => nth (Z.to_nat b) perm (0%nat, 0)) in PL.
  assert (G0 : g <> []). { intros E. clear -E NT. unfold nt, nts in NT. rewrite E in NT. cbn in NT. lia. }
  assert (ND : NoDup perm) by (apply (Permutation_NoDup (Permutation_sym PM)), nodup_every, NN).
  assert (IN : forall k i, In (k, i) perm <-> (k < length g)%nat /\ 0 <= i < r_nt (fst (nth k g no_input))).
  { intros k i. assert (Q : In (k, i) perm <-> In (k, i) (every_trace nts)) by (split; apply Permutation_in; [|apply Permutation_sym]; exact PM). rewrite Q, in_every by exact NN. unfold nts at 1. rewrite map_length.
    split; intros (A1 & A2); (split; [exact A1|]); pose proof (nts_nth key fl k A1) as QN; change (nth k nts 0 = r_nt (fst (nth k g no_input))) in QN; clear -A2 QN; lia. }
  assert (FBX : forall x, In x perm -> file_bytes (file_of g (fst x))). { intros (k, i) X. apply IN in X. destruct X as (X & _). cbn [fst]. apply (si_bytes _ _ _ _ (GI _ (nth_In g no_input X))). }
  split.
  { exists (3 + list_sum (map (fun k => ceil_div (set_biggest p fds k) (Z.to_nat (max_block ns (paramMem sort_set_rule)))) (seq 0 (length g))))%nat.
    intros r R. destruct (output_calls maxSize sort_set_rule srt outmsg g fds p ns nt inc src M1 M2 NS G0 GI PL sort_set_usable sort_set_good sort_set_label sort_set_copy sort_set_mem SRT (sizes r) r R) as (ws & E & L & _).
    exists (set_announcements ns inc outmsg ++ ws). split; [exact E|]. rewrite app_length, L. reflexivity. }
  exists perm. split; [exact PM|]. split; [exact ND|]. split; [exact IN|]. split; [exact SS|]. split; [|split].
  - intros TT. apply (sorted_weaken _ _ _) with (2 := SS). intros x y X Y Q. destruct (Rle_lt_dec (lead type (hdr x)) (lead type (hdr y))) as [L|L]; [exact L|]. exfalso. apply Q. apply lead_across; [apply FBX, Y|apply FBX, X|clear -T TT; lia|exact L].
  - intros TT (s & SC). assert (H : StronglySorted (fun a b => a <> b) perm).
    { clear -ND. induction ND as [|x l N ND IH]; constructor; [exact IH|]. apply Forall_forall. intros y Y ->. contradiction. }
    assert (H2 : StronglySorted (fun a b => a <> b /\ ~ lex (keys type (trace_geo g ns b)) (keys type (trace_geo g ns a))) perm).
    { clear -H SS. induction SS as [|x l SS IH Q]; [constructor|]. inversion H as [|? ? H1 H2]; subst. constructor; [apply IH; exact H1|]. rewrite Forall_forall in *. intros y Y. split; [apply H2|apply Q]; exact Y. }
    apply (sorted_weaken _ _ _) with (2 := H2). intros x y X Y (NE & Q). destruct (SC x X) as (X1 & X2). destruct (SC y Y) as (Y1 & Y2). unfold trace_geo in Q. unfold hdr in X1, X2, Y1, Y2.
    rewrite (lex_across type _ _ ns _ _ _ _ (FBX y Y) (FBX x X) TT (eq_trans Y1 (eq_sym X1)) Y2 X2) in Q. fold (hdr x) (hdr y) in Q. fold (number x) (number y) in Q.
    assert (NN' : number x <> number y).
    { intros EQ. apply NE. destruct x as (k, i), y as (k', i'). apply IN in X, Y. unfold number in EQ. cbn [fst snd] in EQ. clear -X Y EQ. destruct X as (X & _), Y as (Y & _). assert (A : 0 <= Z.of_nat k < Z.of_nat (length g)) by lia. assert (A' : 0 <= Z.of_nat k' < Z.of_nat (length g)) by lia.
      assert (i = i'). { apply (f_equal (fun z => z / Z.of_nat (length g))) in EQ. rewrite !(Z.add_comm (_ * _)), !Z.div_add, !Z.div_small in EQ by lia. lia. } subst i'. assert (k = k') by lia. subst. reflexivity. }
    clear -Q NN' TT. unfold header_keys in *. destruct TT as [<-|[<-|[<-|[<-|[<-|[]]]]]]; cbn [app lex] in *;
      repeat match goal with |- (?x < ?y)%R \/ _ => destruct (Rtotal_order x y) as [?|[?|?]]; [left; assumption|right; split; [assumption|]|exfalso; apply Q; repeat first [left; lra|right; split; [lra|]]] end.
    all: apply NN', eq_IZR; assumption.
  - intros h f0 maxSize' sizes' FB0 M' RK RUN.
    destruct (set_life maxSize sort_set_rule srt outmsg g fds p ns nt inc src M1 M2 NS G0 GI PL sort_set_usable sort_set_good sort_set_label sort_set_copy sort_set_mem SRT h f0 maxSize' sizes' sizes P NT F FB0 M' RK RUN)
      as (f' & rd' & W & SZ' & O & Q1 & Q2 & Q3 & WF & CF & CV).
    exists f', rd'. repeat (split; [assumption|]). intros b Hb x.
    pose proof (history_full maxSize p h f0 f' nt ns _ sort_set_rule WF sort_set_usable sort_set_copy CF (fun b => source_bytes_ok maxSize g fds p ns nt inc src G0 GI PL b) b (CV b Hb)) as H.
    assert (XI : (fst x < length g)%nat). { assert (X : In x perm) by (apply nth_In; rewrite (Permutation_length PM); unfold every_trace; rewrite <- locate_all, map_length, length_zr by exact NN; fold nt; clear -Hb; lia). destruct x as (k, i). apply IN in X. apply X. }
    unfold source_of, src in H. fold x in H. clearbody x. destruct x as (k, i). cbn [fst snd] in *. rewrite (nth_indep g _ no_input XI) in H. destruct H as (HS & _ & HH & HI & _ & HC). fold (file_of g k) in HS, HH, HI, HC.
    constructor; [constructor| |].
    + exact HS.
    + intros l L. destruct (sort_set_int l L) as (m & e & LK & ET & <-). apply (HI m e LK ET).
    + intros PS l L. destruct (sort_set_coordinate l L) as (m & e & LK & ET & <- & ES). destruct (HC m e LK ET) as (_ & Q); rewrite ES in *; [exact PS|exact Q].
    + intros PS. destruct sort_set_depth as (e & LK & ET & EL & ES). destruct (HC 19 e LK ET) as (_ & Q); rewrite ES in *; [exact PS|rewrite EL in Q; exact Q].
    + intros y Y N. apply HH; [exact Y|apply sort_set_untouched; assumption].
Qed.
Print Assumptions C118_in_step_partial.

(** C118 refuted also with the smaller file first, on three ranks: files of 6 and 24
    traces. *)
Definition parts_on (n m : Z) (p : nat) : option file :=
  obind (open_file 4000 [] (part_file 1 n)) (fun rd1 => obind (open_file 4000 [] (part_file 2 m)) (fun rd2 =>
  let fl := [((1, 250), (rd1, part_file 1 n)); ((1, 250), (rd2, part_file 2 m))] in let g := group_members (1, 250) fl in
  obind (sort_set 80 80 4000 (fun _ _ => []) isort 41 g (group_files (1, 250) fl p) p) (fun fds =>
  obind (omap (fun r => set_calls 4000 (fun _ _ => []) sort_set_rule isort [] g fds p r) (seq 0 p)) (fun ops =>
  write_file 4000 p (concat (map (fun r => map (pair r) (nth r ops [])) (seq 0 p))) (mkFile 0 (fun _ => 0)))))).
Definition is_sorted (l : list Z) : bool := forallb (fun x => fst x <=? snd x) (List.combine l (tl l)).
Theorem C118_three_processes_refuted : option_map (fun f => is_sorted (lines_of f)) (parts_on 6 24 3) = Some false /\ option_map (fun f => is_sorted (lines_of f)) (parts_on 6 24 2) = Some true.
Proof. split; vm_compute; reflexivity. Qed.
Print Assumptions C118_three_processes_refuted.

(** Two files of eight traces on two ranks, and of four and eight on two, are in step. *)
Example C118_in_step_nonvacuous : in_step 3 [8; 8] /\ in_step 2 [4; 8] /\ 4 <= zsum (map (fun n => n / 2) [4; 8]) /\ 4 <= zsum (map (fun n => n / 3) [8; 8]) /\
  map fst (all 2 (cache 2 [4; 8])) = [0; 1; 2; 3; 4; 5; 8; 9; 12; 13; 14; 15] /\ map fst (all 2 (cache 2 [8; 4])) = [0; 1; 2; 3; 4; 5; 10; 11; 12; 13; 12; 13].
Proof.
  split; [right; right; exists 8; intros m [<-|[<-|[]]]; reflexivity|]. split; [right; left; split; [reflexivity|repeat constructor; lia]|]. split; [cbn; lia|]. split; [cbn; lia|]. split; vm_compute; reflexivity.
Qed.
