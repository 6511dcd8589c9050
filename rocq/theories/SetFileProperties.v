(** C103: a set without operations writes the traces of its files one after another, byte
    for byte. *)
From Coq Require Import Reals Lra Permutation Sorted.
From Flocq Require Import Core IEEE754.BinarySingleNaN.
From Verif Require Import Base DecompModel DecompSpec DecompProofs NumEncModel NumEncSpec NumEncProofs CharEncModel CharEncProofs LayoutModel LayoutProofs DataIOModel DataIOProofs
  RuleModel RuleProofs DoubleModel ParamModel ParamProofs HeaderProofs ScalarProofs FileSpec FileModel FileProofs WriteSpec WriteProofs ParamProperties ReadProofs OpenProofs FileProperties TraceProperties.
From Verif Require Import SortSpec SortModel SortProofs FlowModel FlowProofs FlowProperties CopySpec CopyProofs CopyProperties ExampleModel ExampleProofs SetFileModel SetFileSpec SetFileProofs SetOutProofs.
Import ListNotations.
Open Scope Z_scope.

(** The general case: wherever the traces of the files go, as long as the positions fill an
    output of nt traces, all ranks make the same number of calls, and whatever the order
    in which the calls of the ranks take effect the output file has at every position
    every byte of the trace that goes there. *)
Theorem C103_rearranged : forall maxSize ns inc g fds p nt src srt outmsg (sizes : nat -> nat -> nat -> list Z),
  3600 <= maxSize -> 2 * (240 + 4 * ns) <= maxSize -> 0 <= ns <= 32767 -> (0 < p)%nat -> 0 < nt -> fits nt ns -> std_sort srt ->
  g <> [] -> (forall x, In x g -> set_input maxSize ns inc x) -> placed p nt (map (fun x => r_nt (fst x)) g) fds src ->
  let run r := set_calls maxSize (sizes r) set_rule srt outmsg g fds p r in
  (exists c, forall r, (r < p)%nat -> exists ws, run r = Some ws /\ length ws = c) /\
  forall h f0 maxSize' sizes', file_bytes f0 -> 3600 <= maxSize' -> (forall x, In x h -> (fst x < p)%nat) -> (forall r, (r < p)%nat -> run r = Some (rank_ops h r)) ->
  exists f' rd', write_file maxSize p h f0 = Some f' /\ fsize f' = 3600 + nt * (240 + 4 * ns) /\
  open_file maxSize' sizes' f' = Some rd' /\ r_ns rd' = ns /\ r_nt rd' = nt /\ r_inc rd' = inc /\
  forall b d, 0 <= b < nt -> same_trace (snd (nth (fst (src b)) g d)) (snd (src b)) f' b ns.
Proof.
  intros maxSize ns inc g fds p nt src srt outmsg sizes M1 M2 NS P NT F SRT G0 GI PL run. split.
  - exists (3 + list_sum (map (fun k => ceil_div (set_biggest p fds k) (Z.to_nat (max_block ns (paramMem set_rule)))) (seq 0 (length g))))%nat.
    intros r R. destruct (output_calls maxSize set_rule srt outmsg g fds p ns nt inc src M1 M2 NS G0 GI PL set_rule_usable set_rule_good set_rule_label set_rule_copy set_rule_mem SRT (sizes r) r R) as (ws & E & L & _).
    exists (set_announcements ns inc outmsg ++ ws). split; [exact E|]. rewrite app_length, L. reflexivity.
  - intros h f0 maxSize' sizes' FB0 M' RK RUN.
    destruct (set_life maxSize set_rule srt outmsg g fds p ns nt inc src M1 M2 NS G0 GI PL set_rule_usable set_rule_good set_rule_label set_rule_copy set_rule_mem SRT h f0 maxSize' sizes' sizes P NT F FB0 M' RK RUN)
      as (f' & rd' & W & SZ & O & Q1 & Q2 & Q3 & WF & CF & CV).
    exists f', rd'. repeat (split; [assumption|]). intros b d B.
    pose proof (history_full maxSize p h f0 f' nt ns _ set_rule WF set_rule_usable set_rule_copy CF (fun b => source_bytes_ok maxSize g fds p ns nt inc src G0 GI PL b) b (CV b B)) as H.
    assert (K : (fst (src b) < length g)%nat).
    { destruct (pl_cover _ _ _ _ _ PL b B) as (r & k & j & R & K & J & E). destruct (pl_pairs _ _ _ _ _ PL r k R K) as (_ & _ & Q). destruct (Q j J) as (_ & _ & S). rewrite E in S. rewrite S. rewrite map_length in K. exact K. }
    unfold source_of in H. destruct (src b) as (k, a) eqn:SB. cbn [fst snd] in *. rewrite (nth_indep g d (hd (mkR 0 0 inc 0 [], mkFile 0 (fun _ => 0)) g) K).
    set (fk := snd (nth k g _)) in *. destruct H as (HS & HB & HH & _). assert (FK : file_bytes fk) by (apply (GI _ (nth_In _ _ K))).
    intros x X. destruct (Z_lt_dec x 240) as [L|L].
    + apply (HH x ltac:(lia)). apply set_rule_untouched.
    + pose proof (sample_bytes fk f' ns a b (x - 240) HS HB FK ltac:(lia)) as Q. replace (trace_at ns b + 240 + (x - 240)) with (trace_at ns b + x) in Q by lia. replace (trace_at ns a + 240 + (x - 240)) with (trace_at ns a + x) in Q by lia. exact Q.
Qed.
Print Assumptions C103_rearranged.

(** Files added to a set and written: the output of a group of files with the same number
    of samples and the same interval holds their traces one file after another in the order
    the files were added, whatever the number of ranks. *)
Theorem C103_concatenation : forall maxSize ns inc key fl p srt outmsg (sizes : nat -> nat -> nat -> list Z),
  let g := group_members key fl in let nts := map (fun x => r_nt (fst x)) g in
  3600 <= maxSize -> 2 * (240 + 4 * ns) <= maxSize -> 0 <= ns <= 32767 -> (0 < p)%nat -> 0 < zsum nts -> fits (zsum nts) ns -> std_sort srt ->
  Forall (fun x => in_u64 (r_nt (fst (snd x)))) fl -> (forall k, gsum k (map (fun x => (fst x, r_nt (fst (snd x)))) fl) < two64) ->
  (forall x, In x g -> set_input maxSize ns inc x) ->
  let run r := set_calls maxSize (sizes r) set_rule srt outmsg g (group_files key fl p) p r in
  (exists c, forall r, (r < p)%nat -> exists ws, run r = Some ws /\ length ws = c) /\
  forall h f0 maxSize' sizes', file_bytes f0 -> 3600 <= maxSize' -> (forall x, In x h -> (fst x < p)%nat) -> (forall r, (r < p)%nat -> run r = Some (rank_ops h r)) ->
  exists f' rd', write_file maxSize p h f0 = Some f' /\ fsize f' = 3600 + zsum nts * (240 + 4 * ns) /\
  open_file maxSize' sizes' f' = Some rd' /\ r_ns rd' = ns /\ r_nt rd' = zsum nts /\ r_inc rd' = inc /\
  forall k rd f i, nth_error g k = Some (rd, f) -> 0 <= i < r_nt rd -> same_trace f i f' (zsum (firstn k nts) + i) ns.
Proof.
  intros maxSize ns inc key fl p srt outmsg sizes g nts M1 M2 NS P NT F SRT U B GI run.
  assert (PL : placed p (zsum nts) nts (group_files key fl p) (locate 0 nts)) by (apply added_placed; assumption).
  assert (G0 : g <> []). { intros E. unfold nts in NT. rewrite E in NT. cbn in NT. lia. }
  destruct (C103_rearranged maxSize ns inc g (group_files key fl p) p (zsum nts) (locate 0 nts) srt outmsg sizes M1 M2 NS P NT F SRT G0 GI PL) as (C & H). split; [exact C|].
  intros h f0 maxSize' sizes' FB0 M' RK RUN. destruct (H h f0 maxSize' sizes' FB0 M' RK RUN) as (f' & rd' & W & SZ & O & Q1 & Q2 & Q3 & Q). exists f', rd'. repeat (split; [assumption|]).
  intros k rd f i K I. assert (NN : Forall (fun n => 0 <= n) nts).
  { apply Forall_forall. intros n N. apply in_map_iff in N. destruct N as (x & <- & X). unfold g, group_members in X. apply in_map_iff in X. destruct X as (y & <- & Y). apply filter_In in Y. apply (proj1 (Forall_forall _ _) U y (proj1 Y)). }
  assert (KL : (k < length nts)%nat) by (unfold nts; rewrite map_length; apply nth_error_Some; rewrite K; discriminate).
  assert (NK : nth k nts 0 = r_nt rd). { unfold nts. apply nth_error_nth. rewrite nth_error_map, K. reflexivity. }
  destruct (firstn_sum nts k NN KL) as (A1 & A2). specialize (Q (zsum (firstn k nts) + i) (rd, f) ltac:(lia)). rewrite (locate_spec nts 0 k i NN KL ltac:(lia)) in Q. cbn [fst snd Nat.add] in Q. rewrite (nth_error_nth _ _ _ K) in Q. exact Q.
Qed.
Print Assumptions C103_concatenation.

(** Two files of three traces each on two ranks; a third file with another interval is in a
    group of its own. *)
Example C103_nonvacuous : exists rd1 rd2 : reader, let key := (2, 250) in let fl := [(key, (rd1, source_file 250)); ((2, 125), (rd2, source_file 125)); (key, (rd1, source_file 250))] in
  let g := group_members key fl in let nts := map (fun x => r_nt (fst x)) g in
  g = [(rd1, source_file 250); (rd1, source_file 250)] /\ (forall x, In x g -> set_input 4000 2 (r_inc rd1) x) /\ zsum nts = 6 /\ fits (zsum nts) 2 /\ std_sort isort /\
  Forall (fun x => in_u64 (r_nt (fst (snd x)))) fl /\ (forall k, gsum k (map (fun x => (fst x, r_nt (fst (snd x)))) fl) < two64) /\
  map f_ilst (group_files key fl 2 1) = [[2]; [2]] /\ map f_olst (group_files key fl 2 1) = [[2]; [5]].
Proof.
  destruct (source_open 250) as (rd & O & N & T & FM & IV & TX); [unfold is_byte; lia|]. destruct (source_open 125) as (rd2 & O2 & N2 & T2 & FM2 & IV2 & TX2); [unfold is_byte; lia|].
  exists rd, rd2. cbv zeta. cbn [group_members filter map fst snd gkeqb Z.eqb Pos.eqb andb]. split; [reflexivity|].
  split; [|rewrite !T, ?T2; split; [reflexivity|split; [|split; [apply isort_std|split; [|split]]]]].
  - assert (S : set_input 4000 2 (r_inc rd) (rd, source_file 250)).
    { constructor; cbn [fst snd]; [exists []; exact O|apply source_bytes; unfold is_byte; lia|cbn [source_file fsize]; unfold two64; lia|exact N|reflexivity|vm_compute; discriminate|vm_compute; discriminate]. }
    intros x [<-|[<-|[]]]; exact S.
  - change (zsum [3; 3]) with 6. unfold fits, two64. cbn. repeat split; lia.
  - repeat constructor; cbn [fst snd]; rewrite ?T, ?T2; unfold two64; lia.
  - intros k. unfold gsum. cbn [filter map fst snd]. destruct (gkeqb (2, 250) k), (gkeqb (2, 125) k); vm_compute; reflexivity.
  - unfold group_files. cbn [map fst snd]. rewrite T, T2. split; vm_compute; reflexivity.
Qed.
