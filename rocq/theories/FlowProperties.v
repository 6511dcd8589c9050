(** C63-C66: workflows. *)
From Coq Require Import String Ascii Permutation.
From Verif Require Import Base DecompModel DecompSpec DecompProofs DataIOModel DataIOProofs SortSpec SortModel SortProofs SortProperties FlowModel FlowProofs.
Import ListNotations.
Open Scope Z_scope.

(** ---- C63 ---- *)
(** The files of a group one after the other: (file, trace of the file, position in
    the output), in the order of the output. *)
Fixpoint laid_out (k : nat) (off : Z) (nts : list Z) : list (nat * (Z * Z)) :=
  match nts with [] => [] | nt :: nts => map (fun i => (k, (i, off + i))) (zr nt) ++ laid_out (S k) (off + nt) nts end.
(** What all ranks write: rank r's moves of file k, for every file k of the group. *)
Definition numbered (l : list (list (Z * Z))) (k : nat) : list (nat * (Z * Z)) := flat_map (fun kl => map (fun m => (fst kl, m)) (snd kl)) (combine (seq k (length l)) l).
Definition all_moves srt (max : nat) (p : nat) (key : gkey) (fl : list (gkey * Z)) : list (nat * (Z * Z)) :=
  flat_map (fun r => numbered (map (fun f => concat (file_calls srt max (length (f_ilst f)) f)) (group key (add_files (Z.of_nat p) (Z.of_nat r) fl))) 0) (seq 0 p).
Lemma numbered_cons x l k : numbered (x :: l) k = map (fun m => (k, m)) x ++ numbered l (S k).
Proof. reflexivity. Qed.
Lemma group_entries key p r : forall fl before, group key (entries p r before fl) =
  (fix go nts off := match nts with [] => [] | nt :: nts => entry p r (key, nt) off :: go nts (off + nt) end) (map snd (filter (fun f => gkeqb (fst f) key) fl)) (gsum key before).
Proof.
  induction fl as [|(k, nt) fl IH]; intros before; [reflexivity|]. cbn [entries group filter fst]. unfold group in *. cbn [f_key entry fst]. destruct (gkeqb_spec k key) as [->|NE].
  - cbn [map snd]. f_equal. rewrite IH, gsum_app. f_equal. unfold gsum at 2. cbn [filter fst]. destruct (gkeqb_spec key key); [|congruence]. cbn. lia.
  - rewrite IH, gsum_app. f_equal. unfold gsum at 2. cbn [filter fst]. destruct (gkeqb_spec k key); [congruence|]. cbn. lia.
Qed.
Theorem C63_concatenation : forall srt max p key fl, std_sort srt -> (0 < max)%nat -> (0 < p)%nat ->
  Forall (fun f => in_u64 (snd f)) fl -> (forall k, gsum k fl < two64) ->
  let nts := map snd (filter (fun f => gkeqb (fst f) key) fl) in
  Permutation (all_moves srt max p key fl) (laid_out 0 0 nts) /\ map (fun m => snd (snd m)) (laid_out 0 0 nts) = zr (zsum nts).
Proof.
  intros srt max p key fl S M P F B nts.
  assert (FN : Forall in_u64 nts). { unfold nts. apply Forall_forall. intros x X. apply in_map_iff in X. destruct X as (f & <- & X). apply filter_In in X. apply (proj1 (Forall_forall _ _) F f), X. }
  split.
  - unfold all_moves.
    assert (E : forall r, In r (seq 0 p) -> Permutation (numbered (map (fun f => concat (file_calls srt max (length (f_ilst f)) f)) (group key (add_files (Z.of_nat p) (Z.of_nat r) fl))) 0)
      ((fix go nts k off := match nts with [] => [] | nt :: nts => map (fun i => (k, (off_of nt (Z.of_nat p) (Z.of_nat r) + i, off + (off_of nt (Z.of_nat p) (Z.of_nat r) + i)))) (zr (sz_of nt (Z.of_nat p) (Z.of_nat r))) ++ go nts (Datatypes.S k) (off + nt) end) nts 0%nat 0)).
    { intros r R. apply in_seq in R. rewrite (add_files_spec (Z.of_nat p) (Z.of_nat r) fl) by (assumption || lia). rewrite group_entries. fold nts. change (gsum key []) with 0. generalize 0 as off. generalize 0%nat as k. clear -S M. induction nts as [|nt nts IH]; intros k off; [constructor|]. cbn [map]. rewrite numbered_cons. apply Permutation_app; [|apply IH].
      eapply Permutation_trans; [apply Permutation_map, file_calls_moves; [exact S|exact M|unfold entry; cbn [f_ilst f_olst]; rewrite !map_length; reflexivity]|]. unfold entry. cbn [f_ilst f_olst fst snd]. rewrite combine_map, map_map. apply Permutation_refl. }
    eapply Permutation_trans with (flat_map (fun r => (fix go nts k off := match nts with [] => [] | nt :: nts => map (fun i => (k, (off_of nt (Z.of_nat p) (Z.of_nat r) + i, off + (off_of nt (Z.of_nat p) (Z.of_nat r) + i)))) (zr (sz_of nt (Z.of_nat p) (Z.of_nat r))) ++ go nts (Datatypes.S k) (off + nt) end) nts 0%nat 0) (seq 0 p)).
    { clear -E. induction (seq 0 p) as [|r l IH]; [constructor|]. cbn [flat_map]. apply Permutation_app; [apply E; left; reflexivity|apply IH; intros; apply E; right; assumption]. }
    clear E F B. clearbody nts. generalize 0 as off. generalize 0%nat at 1 3 as k. revert FN. induction nts as [|nt nts IH]; intros FN k off.
    + cbn [laid_out]. clear. induction (seq 0 p); [constructor|assumption].
    + inversion FN as [|? ? F1 F2]; subst. cbn [laid_out].
      eapply Permutation_trans; [|apply Permutation_app_head, (IH F2 (Datatypes.S k) (off + nt))].
      assert (T : map (fun i => (k, (i, off + i))) (zr nt) = flat_map (fun r => map (fun i => (k, (off_of nt (Z.of_nat p) (Z.of_nat r) + i, off + (off_of nt (Z.of_nat p) (Z.of_nat r) + i)))) (zr (sz_of nt (Z.of_nat p) (Z.of_nat r)))) (seq 0 p)).
      { pose proof (pieces_tile nt (Z.of_nat p) F1 ltac:(lia) p ltac:(lia)) as T. rewrite off_p in T by (destruct F1; lia). rewrite <- T. clear. induction (seq 0 p) as [|r l IH]; [reflexivity|]. cbn [flat_map]. rewrite map_app, IH, map_map. reflexivity. }
      rewrite T. clear. induction (seq 0 p) as [|r l IH]; [constructor|]. cbn [flat_map]. rewrite <- !app_assoc. apply Permutation_app_head. eapply Permutation_trans; [apply Permutation_app_head, IH|]. rewrite !app_assoc. apply Permutation_app_tail, Permutation_app_comm.
  - replace (zr (zsum nts)) with (map (Z.add 0) (zr (zsum nts))) by (rewrite <- (map_id (zr (zsum nts))) at 2; apply map_ext; intros; lia). clearbody nts. generalize 0 as off. generalize 0%nat as k. clear -FN. induction FN as [|nt nts F1 FN IH]; intros k off; [reflexivity|]. cbn [laid_out]. rewrite map_app, IH.
    assert (NN : 0 <= zsum nts) by (clear -FN; induction FN as [|x l (X & _) _ IH]; [cbn; lia|unfold zsum in *; cbn [fold_right]; lia]). change (zsum (nt :: nts)) with (nt + zsum nts). destruct F1. rewrite zr_app, map_app, !map_map by lia. f_equal; apply map_ext; intros; cbn [snd]; lia.
Qed.
Print Assumptions C63_concatenation.
Example C63_demo : let fl := [((100, 4), 3); ((50, 4), 2); ((100, 4), 4)] in Forall (fun f => in_u64 (snd f)) fl /\ std_sort (@isort) /\
  laid_out 0 0 (map snd (filter (fun f => gkeqb (fst f) (100, 4)) fl)) = [(0%nat, (0, 0)); (0%nat, (1, 1)); (0%nat, (2, 2)); (1%nat, (0, 3)); (1%nat, (1, 4)); (1%nat, (2, 5)); (1%nat, (3, 6))] /\
  map f_olst (add_files 2 1 fl) = [[2]; [1]; [5; 6]].
Proof. cbv zeta. split; [repeat constructor; unfold in_u64; cbn; lia|]. split; [exact isort_std|]. split; reflexivity. Qed.

(** ---- C64 ---- *)
(** The blocks of a rank follow each other, cover its traces once, hold at most max
    traces; the calls of a block only concern that block. *)
Theorem C64_every_trace_once : forall srt max biggest f, std_sort srt -> (0 < max)%nat -> length (f_olst f) = length (f_ilst f) ->
  let bl := block_list max (length (f_ilst f)) in
  flat_map (fun b => seq (fst b) (snd b)) bl = seq 0 (length (f_ilst f)) /\ (forall b, In b bl -> (0 < snd b <= max)%nat) /\
  exists calls, file_calls srt max biggest f = calls ++ repeat [] (extra_blocks max biggest (length (f_ilst f))) /\
    Forall2 (fun b c => Permutation c (map (fun k => (nth k (f_ilst f) 0, nth k (f_olst f) 0)) (seq (fst b) (snd b)))) bl calls.
Proof.
  intros srt max biggest f S M L bl. destruct (block_list_spec max (length (f_ilst f)) M) as (A & _ & C). split; [exact A|]. split; [intros b I; apply (proj1 (Forall_forall _ _) C b I)|].
  eexists. split; [reflexivity|]. fold bl. clear A C. clearbody bl. induction bl as [|b bl IH]; [constructor|]. cbn [map]. constructor; [apply block_moves_perm, S|exact IH].
Qed.
Print Assumptions C64_every_trace_once.
(** All ranks make the same number of calls. *)
Theorem C64_calls_agree : forall srt max (fs : list fdesc) f, (0 < max)%nat -> In f fs ->
  let biggest := fold_left Nat.max (map (fun f => length (f_ilst f)) fs) 0%nat in
  length (file_calls srt max biggest f) = ceil_div biggest max.
Proof.
  intros srt max fs f M I biggest. unfold file_calls. cbv zeta. rewrite app_length, map_length, repeat_length. destruct (block_list_spec max (length (f_ilst f)) M) as (_ & L & _). rewrite L. unfold extra_blocks.
  assert (LE : (length (f_ilst f) <= biggest)%nat).
  { unfold biggest. assert (G : forall l a, (a <= fold_left Nat.max l a)%nat /\ forall x, In x l -> (x <= fold_left Nat.max l a)%nat).
    { clear. induction l as [|y l IH]; intros a; [split; [cbn; lia|intros ? []]|]. cbn [fold_left]. destruct (IH (Nat.max a y)) as (A & B). split; [lia|]. intros x [<-|X]; [lia|auto]. }
    apply G. apply in_map_iff. exists f. auto. }
  pose proof (ceil_mono max _ _ M LE). lia.
Qed.
Print Assumptions C64_calls_agree.
(** The block size is never zero for files whose trace lengths a SEG-Y header can hold. *)
Theorem C64_block_size_positive : forall ns pm, 0 <= ns < 65536 -> 0 <= pm <= 1000000 -> 0 < max_block ns pm.
Proof.
  intros ns pm N P. unfold max_block. rewrite u64_small by (unfold in_u64, two64; lia). apply Z.div_str_pos. lia.
Qed.
Print Assumptions C64_block_size_positive.
Example C64_demo : block_list 4 10 = [(0, 4); (4, 4); (8, 2)]%nat /\ map (fun n => length (block_list 4 n) + extra_blocks 4 10 n)%nat [10; 8; 3; 0]%nat = [3; 3; 3; 3]%nat /\ max_block 1000 240 = 84149.
Proof. repeat split. Qed.

(** ---- C65 ---- *)
(** What a workflow should do. *)
Definition composed {B} (ops : list (op B)) (b : B) : B := fold_left (fun b o => o_act o b) ops b.
Definition of_kind {B} (k : kind) (ops : list (op B)) : Prop := Forall (fun o => o_kind o = k) ops.
Lemma kind_refl k : kindeqb k k = true. Proof. destruct k; reflexivity. Qed.
Lemma calc_single {B} (ops : list (op B)) b : of_kind KSingle ops -> calc KSingle ops b = Some (composed ops b).
Proof. intros F. revert b. induction F as [|o ops K F IH]; intros b; [reflexivity|]. cbn [calc]. rewrite K. cbn [kindeqb negb]. rewrite IH. reflexivity. Qed.
(** At most one sort, followed by operations on single traces. *)
Theorem C65_sort_then_traces_partial : forall B (w : wset B) sorts ops, (length sorts <= 1)%nat -> of_kind KSubset sorts -> of_kind KSingle ops -> (forall b, w_ord w b = b) ->
  exists names, set_output (sorts ++ ops) w = Some (names, Some (composed (sorts ++ ops) (w_data w))).
Proof.
  intros B w sorts ops L KS KO W. unfold set_output. rewrite <- app_assoc. set (tl := ops ++ [mkOp KSingle (fun b => b)]).
  assert (KT : of_kind KSingle tl) by (apply Forall_app; split; [exact KO|constructor; [reflexivity|constructor]]).
  assert (CT : forall b, composed tl b = composed ops b) by (intros b; unfold composed, tl; rewrite fold_left_app; reflexivity).
  assert (T : forall fuel w0, top (S fuel) tl w0 = Some (true, Some (composed ops (w_ord w0 (w_data w0))))).
  { intros fuel w0. destruct tl as [|o l] eqn:E; [exfalso; unfold tl in E; destruct ops; discriminate|]. cbn [top]. inversion KT as [|? ? K _]; subst. rewrite K. rewrite calc_single by exact KT. cbn [obind]. rewrite CT. reflexivity. }
  destruct sorts as [|s [|]]; [| |cbn in L; lia].
  - exists true. cbn [app]. rewrite T, W. reflexivity.
  - exists false. inversion KS as [|? ? K _]; subst.
    assert (SB : forall w0, subsets tl w0 = (tl, w0)).
    { intros w0. clearbody tl. destruct tl as [|o l]; [reflexivity|]. inversion KT as [|? ? KK _]; subst. cbn [subsets]. rewrite KK. reflexivity. }
    change (length ([s] ++ tl)) with (S (length tl)). change ([s] ++ tl) with (s :: tl). specialize (T (length tl)). set (fu := S (length tl)) in *. clearbody fu.
    change (top (S fu) (s :: tl) w) with (match o_kind s with KSubset => let '(rest, w') := subsets (s :: tl) w in obind (top fu rest w') (fun r => Some (false, snd r)) | KGather => obind (startGather (s :: tl) w) (fun g => match skip_gathers (s :: tl) with [] => Some (true, Some g) | rest => obind (top fu rest (mkWset true g (fun b => b))) (fun r => Some (false, snd r)) end) | KSingle => obind (calc KSingle (s :: tl) (w_ord w (w_data w))) (fun b => Some (true, Some b)) | KOther => obind (top fu tl w) (fun r => Some (false, snd r)) end).
    rewrite K. cbn [subsets]. rewrite K. cbn [kindeqb]. rewrite SB, T. reflexivity.
Qed.
Print Assumptions C65_sort_then_traces_partial.
(** One gather operation, on an unsorted set or on a sorted set of several files. *)
Theorem C65_gather_partial : forall B (w : wset B) sorts g, (length sorts <= 1)%nat -> of_kind KSubset sorts -> o_kind g = KGather -> (forall b, w_ord w b = b) -> (sorts = [] \/ w_one w = false) ->
  exists names, set_output (sorts ++ [g]) w = Some (names, Some (composed (sorts ++ [g]) (w_data w))).
Proof.
  intros B w sorts g L KS KG W C. unfold set_output. rewrite <- app_assoc.
  destruct sorts as [|s [|]]; [| |cbn in L; lia].
  - exists false. cbn [app length top]. rewrite KG. unfold startGather. cbn [calc skip_gathers]. rewrite KG. cbn [kindeqb negb o_kind obind calc top o_act w_ord w_data snd]. rewrite W. destruct (w_one w); reflexivity.
  - exists false. destruct C as [C|C]; [discriminate C|]. inversion KS as [|? ? K _]; subst. cbn [app length top]. rewrite K. cbn [subsets]. rewrite K, KG. cbn [kindeqb]. cbn [top]. rewrite KG. unfold startGather. cbn [calc skip_gathers w_one w_data w_ord]. rewrite KG, C. cbn [kindeqb negb o_kind obind calc top o_act w_ord w_data snd]. reflexivity.
Qed.
Print Assumptions C65_gather_partial.
Definition ex_sort : op (list Z) := mkOp KSubset (@rev Z).
Definition ex_gain : op (list Z) := mkOp KSingle (map (Z.mul 2)).
Definition ex_shift : op (list Z) := mkOp KSingle (map (Z.add 1)).
Definition ex_stack : op (list Z) := mkOp KGather (fun l => [zsum l]).
Definition ex_stack2 : op (list Z) := mkOp KGather (fun l => l ++ [7]).
Definition ex_set : wset (list Z) := mkWset true [3; 1; 4] (fun b => b).
Example C65_demo : set_output [ex_sort; ex_gain; ex_shift] ex_set = Some (false, Some [9; 3; 7]) /\ set_output [ex_gain; ex_shift] ex_set = Some (true, Some [7; 3; 9]) /\ set_output [ex_stack] ex_set = Some (false, Some [8]).
Proof. repeat split. Qed.
(** A sort requested after an operation on single traces is dropped; so is a gather
    operation. *)
Theorem C65_dropped_refuted : forall B (w : wset B) s o, o_kind s = KSingle -> o_kind o <> KSingle -> set_output [s; o] w = Some (true, Some (o_act s (w_ord w (w_data w)))).
Proof.
  intros B w s o K N. unfold set_output. cbn [app length top]. rewrite K. cbn [calc]. rewrite K. cbn [kindeqb negb]. destruct (o_kind o) eqn:E; try reflexivity. congruence.
Qed.
Print Assumptions C65_dropped_refuted.
(** A single-trace operation after a gather operation is applied twice. *)
Theorem C65_twice_refuted : forall B (w : wset B) g s, o_kind g = KGather -> o_kind s = KSingle -> w_one w = true ->
  set_output [g; s] w = Some (false, Some (o_act s (o_act s (o_act g (w_data w))))).
Proof.
  intros B w g s KG KS W. unfold set_output. cbn [app length top]. rewrite KG. unfold startGather. cbn [calc skip_gathers]. rewrite KG, KS, W. cbn [kindeqb negb calc o_kind o_act obind]. cbn. rewrite ?KS. cbn. rewrite ?KS. reflexivity.
Qed.
Print Assumptions C65_twice_refuted.
(** Of two gather operations in a row the second is skipped. *)
Theorem C65_second_gather_refuted : forall B (w : wset B) g1 g2, o_kind g1 = KGather -> o_kind g2 = KGather -> w_one w = true ->
  set_output [g1; g2] w = Some (false, Some (o_act g1 (w_data w))).
Proof.
  intros B w g1 g2 K1 K2 W. unfold set_output. cbn [app length top]. rewrite K1. unfold startGather. cbn [calc skip_gathers]. rewrite K1, K2, W. cbn [kindeqb negb calc o_kind obind]. reflexivity.
Qed.
Print Assumptions C65_second_gather_refuted.
(** A sort before a gather operation has no effect on a set of one file. *)
Theorem C65_sort_lost_refuted : forall B (w : wset B) s g, o_kind s = KSubset -> o_kind g = KGather -> w_one w = true ->
  set_output [s; g] w = Some (false, Some (o_act g (w_data w))).
Proof.
  intros B w s g KS KG W. unfold set_output. cbn [app length top]. rewrite KS. cbn [subsets]. rewrite KS, KG. cbn [kindeqb top]. rewrite KG. unfold startGather. cbn [calc skip_gathers w_one w_data w_ord]. rewrite KG, W. reflexivity.
Qed.
Print Assumptions C65_sort_lost_refuted.
Example C65_differ : o_act ex_shift (o_act ex_shift [8]) <> composed [ex_stack; ex_shift] [3; 1; 4] /\ composed [ex_shift; ex_sort] [3; 1; 4] <> o_act ex_shift [3; 1; 4] /\
  composed [ex_stack; ex_stack2] [3; 1; 4] <> o_act ex_stack [3; 1; 4] /\ composed [ex_sort; ex_stack2] [3; 1; 4] <> o_act ex_stack2 [3; 1; 4].
Proof. split; [|split; [|split]]; discriminate. Qed.

(** ---- C66 ---- *)
Theorem C66_names_differ_partial : forall show outfix k1 n1 k2 n2, 0 <= fst k1 -> 0 <= fst k2 ->
  (fst k1 <> fst k2 \/ show (snd k1) <> show (snd k2)) -> ~ (n1 = 1%nat /\ n2 = 1%nat) -> out_name show outfix k1 n1 <> out_name show outfix k2 n2.
Proof.
  intros show outfix k1 n1 k2 n2 P1 P2 D ONE E. unfold out_name in E.
  assert (NS : forall z x, (".segy")%string <> (dec_string z ++ x)%string).
  { intros z x C. destruct (dec_digits z) as (A & B). destruct (dec_string z) as [|c s]; [congruence|]. cbn in C. injection C as C _. destruct A as (A & _). subst c. unfold digit in A. cbn in A. repeat (destruct A as [A|A]; [discriminate A|]). exact A. }
  destruct (Nat.eqb_spec n1 1) as [->|N1], (Nat.eqb_spec n2 1) as [->|N2].
  - apply ONE. auto.
  - apply app_inj_l in E. apply NS in E. exact E.
  - apply app_inj_l in E. symmetry in E. apply NS in E. exact E.
  - apply app_inj_l in E. apply split_underscore in E; [|apply dec_digits|apply dec_digits]. destruct E as (E1 & E2). apply dec_inj in E1; [|exact P1|exact P2]. apply app_tail_inj in E2. destruct D; auto.
Qed.
Print Assumptions C66_names_differ_partial.
Example C66_demo : out_name (fun _ => "0.004000"%string) "out" (1000, 4) 2 = "out1000_0.004000.segy"%string /\ out_name (fun _ => "0.004000"%string) "out" (500, 4) 1 = "out.segy"%string.
Proof. split; reflexivity. Qed.
(** Two groups of one file each get the same output name. *)
Theorem C66_single_files_refuted : forall show outfix k1 k2, out_name show outfix k1 1 = out_name show outfix k2 1.
Proof. reflexivity. Qed.
Print Assumptions C66_single_files_refuted.

(** ---- C79 ---- *)
(** output tells the names of what it wrote when the chain starts with a single-trace
    operation (or is empty). *)
Theorem C79_names_partial : forall B (w : wset B) ops, (ops = [] \/ exists o r, ops = o :: r /\ o_kind o = KSingle) -> exists b, set_output ops w = Some (true, Some b).
Proof.
  intros B w ops H. unfold set_output. assert (G : forall (l : list (op B)) o r b, l = o :: r -> o_kind o = KSingle -> exists c, calc KSingle l b = Some c).
  { induction l as [|x l IH]; intros o r b E K; [discriminate|]. injection E as -> ->. cbn [calc]. rewrite K. cbn [kindeqb negb]. destruct r as [|y r]; [eexists; reflexivity|]. destruct (o_kind y) eqn:KY; try (cbn [calc]; rewrite KY; eexists; reflexivity). apply (IH y r _ eq_refl KY). }
  destruct H as [->|(o & r & -> & K)].
  - eexists. reflexivity.
  - destruct (G ((o :: r) ++ [mkOp KSingle (fun b => b)]) o (r ++ [mkOp KSingle (fun b => b)]) (w_ord w (w_data w)) eq_refl K) as (c & C). exists c. cbn [app length] in *. cbn [top]. rewrite K, C. reflexivity.
Qed.
Print Assumptions C79_names_partial.
(** After a sort no name is returned though the file is written. *)
Theorem C79_no_names_refuted : forall B (w : wset B) s, o_kind s = KSubset -> set_output [s] w = Some (false, Some (o_act s (w_data w))).
Proof. intros B w s K. unfold set_output. cbn [app length top]. rewrite K. cbn [subsets]. rewrite K. reflexivity. Qed.
Print Assumptions C79_no_names_refuted.
Example C79_demo : set_output [ex_gain] ex_set = Some (true, Some [6; 2; 8]) /\ set_output [ex_sort] ex_set = Some (false, Some [4; 1; 3]).
Proof. split; reflexivity. Qed.
