(** C105: a set with trace operations writes every trace with its header unchanged and its
    samples run through the operations. *)
From Coq Require Import Reals Lra Permutation Sorted.
From Flocq Require Import Core IEEE754.BinarySingleNaN.
From Verif Require Import Base DecompModel DecompSpec DecompProofs NumEncModel NumEncSpec NumEncProofs CharEncModel CharEncProofs LayoutModel LayoutProofs DataIOModel DataIOProofs
  RuleModel RuleProofs DoubleModel ParamModel ParamProofs HeaderProofs ScalarProofs FileSpec FileModel FileProofs WriteSpec WriteProofs ParamProperties ReadProofs OpenProofs FileProperties TraceProperties.
From Verif Require Import SortSpec SortModel SortProofs FloatModel SignalModel SignalSpec SignalProofs SignalProperties FlowModel FlowProofs FlowProperties CopySpec CopyProofs CopyProperties ExampleModel ExampleProofs SetFileModel SetFileSpec SetFileProofs SetOutProofs SetOpsModel SetOpsSpec SetOpsProofs.
Import ListNotations.
Open Scope Z_scope.

(** Any chain of operations that is defined on every trace of the files, wherever the
    traces go: all ranks make the same number of calls, and at every position the output
    has the header of the trace that goes there and the result of the chain on its
    samples.  The number of ranks, the sizes of the blocks and the order in which the calls
    take effect make no difference. *)
Theorem C105_operations : forall fs maxSize ns inc g fds p nt src srt outmsg (sizes : nat -> nat -> nat -> list Z),
  3600 <= maxSize -> 2 * (240 + 4 * ns) <= maxSize -> 0 <= ns <= 32767 -> (0 < p)%nat -> 0 < nt -> fits nt ns -> std_sort srt ->
  g <> [] -> (forall x, In x g -> set_input maxSize ns inc x) -> placed p nt (map (fun x => r_nt (fst x)) g) fds src ->
  Forall keeps fs -> (forall x a, In x g -> 0 <= a < r_nt (fst x) -> exists t, chain fs (floats_at (snd x) ns a) = Done t) ->
  let run r := set_ops_calls fs maxSize (sizes r) set_rule srt outmsg g fds p r in
  (exists c, forall r, (r < p)%nat -> exists ws, run r = Some ws /\ length ws = c) /\
  forall h fi maxSize' sizes', file_bytes fi -> 3600 <= maxSize' -> (forall x, In x h -> (fst x < p)%nat) -> (forall r, (r < p)%nat -> run r = Some (rank_ops h r)) ->
  exists f' rd', write_file maxSize p h fi = Some f' /\ fsize f' = 3600 + nt * (240 + 4 * ns) /\
  open_file maxSize' sizes' f' = Some rd' /\ r_ns rd' = ns /\ r_nt rd' = nt /\ r_inc rd' = inc /\
  forall b d, 0 <= b < nt -> let f := snd (nth (fst (src b)) g d) in let a := snd (src b) in
  same_header f a f' b ns /\ chain fs (floats_at f ns a) = Done (floats_at f' ns b).
Proof.
  intros fs maxSize ns inc g fds p nt src srt outmsg sizes M1 M2 NS P NT F SRT G0 GI PL KS DF run.
  assert (SRC : forall b d, 0 <= b < nt -> In (nth (fst (src b)) g d) g /\ 0 <= snd (src b) < r_nt (fst (nth (fst (src b)) g d)) /\ source_of g inc src b = (snd (nth (fst (src b)) g d), snd (src b))).
  { intros b d B. destruct (pl_cover _ _ _ _ _ PL b B) as (r & k & j & R & K & J & E). destruct (pl_pairs _ _ _ _ _ PL r k R K) as (_ & _ & Q). destruct (Q j J) as (_ & Q2 & S). rewrite E in S.
    rewrite map_length in K. unfold source_of. rewrite S. cbn [fst snd]. split; [apply nth_In; exact K|]. split; [|rewrite (nth_indep g d (hd (mkR 0 0 inc 0 [], mkFile 0 (fun _ => 0)) g) K); reflexivity].
    rewrite (nth_indep (map (fun x => r_nt (fst x)) g) 0 (r_nt (fst d))) in Q2 by (rewrite map_length; exact K). rewrite (map_nth (fun x => r_nt (fst x))) in Q2. exact Q2. }
  assert (D0 : reader * file) by (exact (mkR 0 0 inc 0 [], mkFile 0 (fun _ => 0))).
  assert (DS : forall b, 0 <= b < nt -> exists t, chain fs (floats_at (fst (source_of g inc src b)) ns (snd (source_of g inc src b))) = Done t).
  { intros b B. destruct (SRC b D0 B) as (S1 & S2 & S3). rewrite S3. cbn [fst snd]. apply DF; assumption. }
  split.
  - exists (3 + list_sum (map (fun k => ceil_div (set_biggest p fds k) (Z.to_nat (max_block ns (paramMem set_rule)))) (seq 0 (length g))))%nat.
    intros r R. destruct (ops_output_calls fs maxSize set_rule srt outmsg g fds p ns nt inc src M1 M2 NS G0 GI PL set_rule_usable set_rule_good set_rule_label set_rule_copy set_rule_mem SRT KS DS (sizes r) r R) as (ws & E & L & _).
    exists (set_announcements ns inc outmsg ++ ws). split; [exact E|]. rewrite app_length, L. reflexivity.
  - intros h fi maxSize' sizes' FB0 M' RK RUN.
    destruct (ops_life fs maxSize set_rule srt outmsg g fds p ns nt inc src M1 M2 NS G0 GI PL set_rule_usable set_rule_good set_rule_label set_rule_copy set_rule_mem SRT KS DS h fi maxSize' sizes' sizes P NT F FB0 M' RK RUN)
      as (f' & rd' & W & SZ & O & Q1 & Q2 & Q3 & WF & CF & CV).
    exists f', rd'. repeat (split; [assumption|]). intros b d B. cbv zeta. destruct (SRC b d B) as (S1 & S2 & S3).
    destruct (ops_traces fs maxSize set_rule g fds p ns nt inc src NS G0 GI PL set_rule_usable set_rule_copy KS DS h fi f' WF CF b (CV b B) B) as (HS & HH). rewrite S3 in HS, HH. cbn [fst snd] in HS, HH.
    split; [|exact HS]. intros x X. apply HH; [exact X|apply set_rule_untouched].
Qed.
Print Assumptions C105_operations.

(** A taper of l and r samples on files added to a set, in a build without assertions: the
    traces of the output are those of the files in the order the files were added, with
    their headers, and each is tapered from its first non-zero sample on. *)
Theorem C105_taper_partial : forall fn l r maxSize ns inc key fl p srt outmsg (sizes : nat -> nat -> nat -> list Z),
  let g := group_members key fl in let nts := map (fun x => r_nt (fst x)) g in
  3600 <= maxSize -> 2 * (240 + 4 * ns) <= maxSize -> 0 <= ns <= 32767 -> (0 < p)%nat -> 0 < zsum nts -> fits (zsum nts) ns -> std_sort srt ->
  Forall (fun x => in_u64 (r_nt (fst (snd x)))) fl -> (forall k, gsum k (map (fun x => (fst x, r_nt (fst (snd x)))) fl) < two64) ->
  (forall x, In x g -> set_input maxSize ns inc x) -> 0 <= l < ns -> 0 <= r < ns ->
  (forall x a, In x g -> 0 <= a < r_nt (fst x) -> Exists live (floats_at (snd x) ns a)) ->
  let run q := set_ops_calls [op_taper false fn l r] maxSize (sizes q) set_rule srt outmsg g (group_files key fl p) p q in
  (exists c, forall q, (q < p)%nat -> exists ws, run q = Some ws /\ length ws = c) /\
  forall h fi maxSize' sizes', file_bytes fi -> 3600 <= maxSize' -> (forall x, In x h -> (fst x < p)%nat) -> (forall q, (q < p)%nat -> run q = Some (rank_ops h q)) ->
  exists f' rd', write_file maxSize p h fi = Some f' /\ open_file maxSize' sizes' f' = Some rd' /\ r_ns rd' = ns /\ r_nt rd' = zsum nts /\ r_inc rd' = inc /\
  forall k rd f i, nth_error g k = Some (rd, f) -> 0 <= i < r_nt rd -> let b := zsum (firstn k nts) + i in
  same_header f i f' b ns /\
  forall z x t, floats_at f ns i = z ++ x :: t -> Forall muted z -> live x -> let n := zlen (x :: t) in
  floats_at f' ns b = z ++ imap (tapered fn n (Z.min l n) (Z.min r n)) 0 (x :: t).
Proof.
  intros fn l r maxSize ns inc key fl p srt outmsg sizes g nts M1 M2 NS P NT F SRT U B GI HL HR LV run.
  assert (PL : placed p (zsum nts) nts (group_files key fl p) (locate 0 nts)) by (apply added_placed; assumption).
  assert (G0 : g <> []). { intros E. unfold nts in NT. rewrite E in NT. cbn in NT. lia. }
  assert (TP : forall f i z x t, floats_at f ns i = z ++ x :: t -> Forall muted z -> live x -> chain [op_taper false fn l r] (floats_at f ns i) = Done (z ++ imap (tapered fn (zlen (x :: t)) (Z.min l (zlen (x :: t))) (Z.min r (zlen (x :: t)))) 0 (x :: t))).
  { intros f i z x t E MZ LX. cbn [chain]. unfold op_taper. rewrite E.
    assert (LN : zlen (z ++ x :: t) = ns) by (rewrite <- E; unfold zlen; rewrite floats_length; lia).
    rewrite (C68_taper_partial fn z x t l r MZ LX); [reflexivity|rewrite LN; lia|rewrite LN; lia|rewrite LN; unfold two64; lia]. }
  destruct (C105_operations [op_taper false fn l r] maxSize ns inc g (group_files key fl p) p (zsum nts) (locate 0 nts) srt outmsg sizes M1 M2 NS P NT F SRT G0 GI PL) as (C & H).
  { constructor; [apply taper_keeps|constructor]. }
  { intros x a X A. assert (SP : forall s, Exists live s -> exists z y t, s = z ++ y :: t /\ Forall muted z /\ live y).
    { clear. induction s as [|y s IH]; intros E; [inversion E|]. destruct (feqb y f0) eqn:Y.
      - inversion E as [? ? Q|? ? Q]; subst; [unfold live in Q; congruence|]. destruct (IH Q) as (z & v & t & S1 & S2 & S3). exists (y :: z), v, t. subst s. split; [reflexivity|]. split; [constructor; [exact Y|exact S2]|exact S3].
      - exists [], y, s. split; [reflexivity|]. split; [constructor|exact Y]. }
    destruct (SP _ (LV x a X A)) as (z & y & t & E & MZ & LY). eexists. apply (TP _ _ z y t E MZ LY). }
  split; [exact C|].
  intros h fi maxSize' sizes' FB0 M' RK RUN. destruct (H h fi maxSize' sizes' FB0 M' RK RUN) as (f' & rd' & W & SZ & O & Q1 & Q2 & Q3 & Q). exists f', rd'. repeat (split; [assumption|]).
  intros k rd f i K I b. assert (NN : Forall (fun n => 0 <= n) nts).
  { apply Forall_forall. intros n N. apply in_map_iff in N. destruct N as (x & <- & X). unfold g, group_members in X. apply in_map_iff in X. destruct X as (y & <- & Y). apply filter_In in Y. apply (proj1 (Forall_forall _ _) U y (proj1 Y)). }
  assert (KL : (k < length nts)%nat) by (unfold nts; rewrite map_length; apply nth_error_Some; rewrite K; discriminate).
  assert (NK : nth k nts 0 = r_nt rd). { unfold nts. apply nth_error_nth. rewrite nth_error_map, K. reflexivity. }
  destruct (firstn_sum nts k NN KL) as (A1 & A2). specialize (Q b (rd, f) ltac:(unfold b; lia)). unfold b in Q. rewrite (locate_spec nts 0 k i NN KL ltac:(lia)) in Q. cbn [fst snd Nat.add] in Q. rewrite (nth_error_nth _ _ _ K) in Q. fold b in Q. cbn [snd] in Q.
  destruct Q as (QH & QS). split; [exact QH|]. intros z x t E MZ LX n. rewrite (TP f i z x t E MZ LX) in QS. injection QS as QS. symmetry. exact QS.
Qed.
Print Assumptions C105_taper_partial.

(** What is missing: a trace of zeros.  If any trace of the files is zero throughout, then a
    rank that has it among its traces has no defined run. *)
Theorem C105_dead_trace_refuted : forall dbg fn l r maxSize ns inc g fds p nt src srt outmsg (sizes : nat -> nat -> nat -> list Z),
  3600 <= maxSize -> 2 * (240 + 4 * ns) <= maxSize -> 0 < ns <= 32767 -> std_sort srt ->
  g <> [] -> (forall x, In x g -> set_input maxSize ns inc x) -> placed p nt (map (fun x => r_nt (fst x)) g) fds src -> 0 <= l < ns -> 0 <= r < ns ->
  forall b d, 0 <= b < nt -> Forall muted (floats_at (snd (nth (fst (src b)) g d)) ns (snd (src b))) ->
  exists q, (q < p)%nat /\ set_ops_calls [op_taper dbg fn l r] maxSize (sizes q) set_rule srt outmsg g fds p q = None.
Proof.
  intros dbg fn l r maxSize ns inc g fds p nt src srt outmsg sizes M1 M2 NS SRT G0 GI PL HL HR b d B MU.
  assert (NS' : 0 <= ns <= 32767) by lia.
  destruct (pl_cover _ _ _ _ _ PL b B) as (q & k & j & R & K & J & E). destruct (pl_pairs _ _ _ _ _ PL q k R K) as (_ & _ & Q). destruct (Q j J) as (_ & _ & S). rewrite E in S. rewrite map_length in K.
  exists q. split; [exact R|].
  destruct (output_calls maxSize set_rule srt outmsg g fds p ns nt inc src M1 M2 NS' G0 GI PL set_rule_usable set_rule_good set_rule_label set_rule_copy set_rule_mem SRT (sizes q) q R) as (ws & EW & _ & A & C).
  destruct (C k j K J) as (o & O & MV). rewrite E in MV.
  assert (HG : exists rd fz g', g = (rd, fz) :: g') by (clear -G0; destruct g as [|(rd, fz) g']; [contradiction|]; eauto). destruct HG as (rd & fz & g' & EG).
  assert (RN : r_ns rd = ns) by (apply (si_ns _ _ _ _ (GI (rd, fz) ltac:(rewrite EG; left; reflexivity)))).
  rewrite (set_ops_cons _ _ _ _ _ _ _ _ _ _ _ _ _ EG), RN, EW. cbn [obind]. apply (omap_none _ _ o); [apply in_or_app; right; exact O|].
  apply (with_op_undefined _ (source_of g inc src) ns set_rule o b ltac:(lia) (proj2 (A o O)) MV). intros t.
  unfold source_of. rewrite S in *. cbn [fst snd] in *. rewrite (nth_indep g d (hd (mkR 0 0 inc 0 [], mkFile 0 (fun _ => 0)) g) K) in MU. unfold op_taper.
  rewrite C68_dead_trace_refuted; [discriminate| |exact MU| |].
  - intros Z. apply (f_equal (@length F)) in Z. rewrite floats_length in Z by lia. cbn [length] in Z. lia.
  - unfold zlen. rewrite floats_length by lia. lia.
  - unfold zlen. rewrite floats_length by lia. lia.
Qed.
Print Assumptions C105_dead_trace_refuted.

(** Two files of three traces on two ranks, no trace of which is zero, tapered and then
    gained. *)
Example C105_nonvacuous : exists rd : reader, let key := (2, 250) in let fl := [(key, (rd, source_file 250)); (key, (rd, source_file 250))] in
  let g := group_members key fl in let fs := [op_taper false linear_taper 1 1; op_AGC false (rectangular_RMS_gain false) 1 (f_of_Z 1)] in
  (forall x, In x g -> set_input 4000 2 (r_inc rd) x) /\ placed 2 6 (map (fun x => r_nt (fst x)) g) (group_files key fl 2) (locate 0 [3; 3]) /\
  Forall keeps fs /\ (forall x a, In x g -> 0 <= a < r_nt (fst x) -> Exists live (floats_at (snd x) 2 a) /\ exists t, chain fs (floats_at (snd x) 2 a) = Done t) /\
  Forall muted (floats_at (mkFile 3848 (fun _ => 0)) 2 0).
Proof.
  destruct (source_open 250) as (rd & O & N & T & FM & IV & TX); [unfold is_byte; lia|].
  exists rd. cbv zeta. cbn [group_members filter map fst snd gkeqb Z.eqb Pos.eqb andb].
  split; [|split; [|split; [|split]]].
  - assert (S : set_input 4000 2 (r_inc rd) (rd, source_file 250)).
    { constructor; cbn [fst snd]; [exists []; exact O|apply source_bytes; unfold is_byte; lia|cbn [source_file fsize]; unfold two64; lia|exact N|reflexivity|vm_compute; discriminate|vm_compute; discriminate]. }
    intros x [X|[X|[]]]; subst x; exact S.
  - rewrite T. pose proof (added_placed 2 (2, 250) [((2, 250), (rd, source_file 250)); ((2, 250), (rd, source_file 250))]) as Q. cbn [group_members filter map fst snd gkeqb Z.eqb Pos.eqb andb] in Q. rewrite T in Q. apply Q.
    + clear. lia.
    + repeat constructor; unfold two64; cbn [fst snd]; rewrite ?T; clear; lia.
    + intros k. unfold gsum. cbn [filter map fst snd]. destruct (gkeqb (2, 250) k); vm_compute; reflexivity.
  - constructor; [apply taper_keeps|]. constructor; [apply AGC_keeps|constructor].
  - assert (A : forall a, 0 <= a < 3 -> Exists live (floats_at (source_file 250) 2 a) /\ exists t, chain [op_taper false linear_taper 1 1; op_AGC false (rectangular_RMS_gain false) 1 (f_of_Z 1)] (floats_at (source_file 250) 2 a) = Done t).
    { intros a A. assert (Q : a = 0 \/ a = 1 \/ a = 2) by lia. clear A.
      assert (L : existsb (fun x => negb (feqb x f0)) (floats_at (source_file 250) 2 a) = true) by (destruct Q as [Q|[Q|Q]]; subst a; vm_compute; reflexivity).
      assert (D : match chain [op_taper false linear_taper 1 1; op_AGC false (rectangular_RMS_gain false) 1 (f_of_Z 1)] (floats_at (source_file 250) 2 a) with Done _ => true | _ => false end = true) by (destruct Q as [Q|[Q|Q]]; subst a; vm_compute; reflexivity).
      split; [apply existsb_exists in L; destruct L as (x & X & L); apply Exists_exists; exists x; split; [exact X|unfold live; destruct (feqb x f0); [discriminate|reflexivity]]|].
      destruct (chain _ _) as [t| |]; [exists t; reflexivity|discriminate|discriminate]. }
    intros x a [X|[X|[]]] I; subst x; cbn [fst snd] in *; rewrite T in I; apply A; exact I.
  - repeat constructor.
Qed.
