(** C106: the memory used while a set writes a file. *)
From Verif Require Import Base LayoutModel LayoutProofs DataIOModel RuleModel RuleProofs RuleProperties DoubleModel ParamModel FlowModel FileModel WriteProofs SetFileModel MemoryModel.
Import ListNotations.
Open Scope Z_scope.

(** Specification: the bytes in use after some events. *)
Definition in_use (l : list event) : Z := zsum (map bytes_of l).
(** Never more than lim while l runs, and all of it released at the end. *)
Definition within (lim : Z) (l : list event) : Prop := (forall k, in_use (firstn k l) <= lim) /\ in_use l = 0.

Lemma in_use_app a b : in_use (a ++ b) = in_use a + in_use b.
Proof. unfold in_use. rewrite map_app. induction a as [|x a IH]; [reflexivity|]. cbn [map app]. unfold zsum in *. cbn [fold_right fold_left]. lia. Qed.
Lemma within_mono l a b : within a l -> a <= b -> within b l.
Proof. intros (H & E) L. split; [intros k; specialize (H k); lia|exact E]. Qed.
Lemma within_nil a : 0 <= a -> within a [].
Proof. intros A. split; [intros k; rewrite firstn_nil; exact A|reflexivity]. Qed.
Lemma within_app a l m : within a l -> within a m -> within a (l ++ m).
Proof.
  intros (H & E) (H' & E'). split; [|rewrite in_use_app; lia]. intros k. rewrite firstn_app, in_use_app.
  destruct (Nat.le_gt_cases (length l) k) as [L|L].
  - rewrite firstn_all2 by exact L. rewrite E. specialize (H' (k - length l)%nat). lia.
  - replace (k - length l)%nat with 0%nat by lia. cbn [firstn]. specialize (H k). change (in_use []) with 0. lia.
Qed.
Lemma within_flat {A} (g : A -> list event) a l : 0 <= a -> (forall x, In x l -> within a (g x)) -> within a (flat_map g l).
Proof. intros A0. induction l as [|x l IH]; intros H; [apply within_nil; exact A0|]. cbn [flat_map]. apply within_app; [apply H; left; reflexivity|apply IH; intros; apply H; right; assumption]. Qed.
(** Something held around a run. *)
Lemma within_around n a l : 0 <= n -> within a l -> 0 <= a -> within (n + a) ([Alloc n] ++ l ++ [Free n]).
Proof.
  intros N (H & E) A. split.
  - intros [|k]; [change (in_use (firstn 0 _)) with 0; lia|]. cbn [app firstn]. change (in_use (Alloc n :: firstn k (l ++ [Free n]))) with (in_use ([Alloc n] ++ firstn k (l ++ [Free n]))).
    rewrite in_use_app, firstn_app, in_use_app. change (in_use [Alloc n]) with (n + 0).
    assert (F : in_use (firstn (k - length l) [Free n]) <= 0) by (destruct (k - length l)%nat as [|j]; [cbn; lia|cbn [firstn]; rewrite firstn_nil; change (in_use [Free n]) with (- n + 0); lia]).
    specialize (H k). lia.
  - rewrite !in_use_app, E. change (in_use [Alloc n]) with (n + 0). change (in_use [Free n]) with (- n + 0). lia.
Qed.
Lemma block_le max lnt b : In b (block_list max lnt) -> (snd b <= max)%nat /\ (snd b <= lnt)%nat.
Proof.
  unfold block_list. generalize (S lnt) as fuel, 0%nat as i. induction fuel as [|fuel IH]; intros i; cbn [block_loop]; [intros []|].
  destruct (Nat.ltb_spec i lnt); [|intros []]. intros [<-|I]; [|exact (IH _ I)]. cbn [snd]. destruct (Nat.ltb_spec (i + max) lnt); lia.
Qed.

Lemma list_within p maxSize bsz n : 0 <= p -> within (8 * p + 4 * Z.of_nat n) (list_events p maxSize bsz n).
Proof.
  intros P. unfold list_events. apply within_app.
  - apply (within_mono ([Alloc (8 * p)] ++ [] ++ [Free (8 * p)]) (8 * p + 0)); [apply within_around; [lia|apply within_nil; lia|lia]|lia].
  - apply within_flat; [lia|]. intros b I. apply block_le in I.
    apply (within_mono ([Alloc (4 * Z.of_nat (snd b))] ++ [] ++ [Free (4 * Z.of_nat (snd b))]) (4 * Z.of_nat (snd b) + 0)); [apply within_around; [lia|apply within_nil; lia|lia]|lia].
Qed.
Lemma trace_within p maxSize ns n : 0 <= p -> 0 <= getDOSz ns -> within (getDOSz ns * Z.of_nat n + (8 * Z.of_nat n + (8 * p + 4 * Z.of_nat n))) (trace_events p maxSize ns n).
Proof.
  intros P N. unfold trace_events, object_events. apply within_around; [apply Z.mul_nonneg_nonneg; lia|apply within_around; [lia|apply list_within; exact P|lia]|lia].
Qed.
Lemma param_mem rl n : param_bytes (newParam rl n) = n * paramMem rl.
Proof. unfold param_bytes, paramMem, newParam. cbn [p_len]. lia. Qed.

Lemma block_within p maxSize rl ns n : 0 <= p -> 0 <= ns < 65536 -> 0 <= paramMem rl ->
  within (Z.of_nat n * (40 + (240 + 4 * ns) + 2 * paramMem rl + 2 * (4 * ns)) + 8 * p) (block_events p maxSize rl ns n).
Proof.
  intros P N M. unfold block_events. cbv zeta. rewrite param_mem.
  assert (D : getDOSz ns = 240 + 4 * ns) by (apply getDOSz_exact; unfold two64; lia).
  set (c := Z.of_nat n). set (t := 4 * (c * ns)). set (m := c * paramMem rl). set (i := 8 * c).
  pose proof (trace_within p maxSize ns n P ltac:(lia)) as T. rewrite D in T. fold c in T. set (tr := trace_events p maxSize ns n) in *.
  assert (C0 : 0 <= c) by (unfold c; lia). assert (T0 : 0 <= t) by (unfold t; assert (0 <= c * ns) by (apply Z.mul_nonneg_nonneg; lia); lia).
  assert (M0 : 0 <= m) by (unfold m; apply Z.mul_nonneg_nonneg; lia). assert (I0 : 0 <= i) by (unfold i; lia).
  set (w := (240 + 4 * ns) * c + (8 * c + (8 * p + 4 * c))) in *. assert (W0 : 0 <= w) by (unfold w; assert (0 <= (240 + 4 * ns) * c) by (apply Z.mul_nonneg_nonneg; lia); lia).
  apply (within_mono _ (t + (m + (i + (m + (t + w)))))).
  - replace ([Alloc t; Alloc m] ++ tr ++ [Alloc i; Alloc m; Alloc t] ++ tr ++ [Free t; Free m; Free i; Free m; Free t])
      with ([Alloc t] ++ ([Alloc m] ++ (tr ++ ([Alloc i] ++ ([Alloc m] ++ ([Alloc t] ++ tr ++ [Free t]) ++ [Free m]) ++ [Free i])) ++ [Free m]) ++ [Free t]).
    2: { cbn [app]. repeat (rewrite <- ?app_assoc; cbn [app]). reflexivity. }
    apply within_around; [exact T0| |lia]. apply within_around; [exact M0| |lia]. apply within_app; [apply (within_mono _ w); [exact T|lia]|].
    apply within_around; [exact I0| |lia]. apply within_around; [exact M0| |lia]. apply within_around; [exact T0|exact T|exact W0].
  - unfold t, m, i, w. lia.
Qed.
Lemma empty_within p maxSize rl ns : 0 <= p -> 0 <= ns < 65536 -> within (8 * p) (empty_events p maxSize rl ns).
Proof.
  intros P N. unfold empty_events. cbv zeta. rewrite param_mem. apply within_app.
  - apply (within_mono _ (8 * p + 4 * Z.of_nat 0)); [apply list_within; exact P|lia].
  - apply (within_mono _ (0 * paramMem rl + (getDOSz ns * Z.of_nat 0 + (8 * Z.of_nat 0 + (8 * p + 4 * Z.of_nat 0))))); [|lia].
    apply within_around; [lia|apply trace_within; [exact P|rewrite getDOSz_exact by (unfold two64; lia); lia]|lia].
Qed.

(** Whatever the numbers of files, traces and processes, the samples per trace and the
    rule: at no moment does a process use more than 1 GiB for a block of traces, plus the
    eight bytes per process of the gathered sizes; nothing is left over at the end. *)
Theorem C106_memory_limit :
  forall p maxSize rl ns counts, 0 <= p -> 0 <= ns < 65536 -> 0 <= paramMem rl < 4294967296 ->
  (forall k, in_use (firstn k (group_events p maxSize rl ns counts)) <= 1024 * 1024 * 1024 + 8 * p) /\
  in_use (group_events p maxSize rl ns counts) = 0.
Proof.
  intros p maxSize rl ns counts P N M. change (within (1024 * 1024 * 1024 + 8 * p) (group_events p maxSize rl ns counts)).
  unfold group_events. cbv zeta. apply within_flat; [lia|]. intros (bg, lnt) _. cbn [fst snd]. unfold file_events. apply within_app; apply within_flat; try lia.
  - intros b I. apply block_le in I. destruct I as (I & _). eapply within_mono; [apply block_within; [exact P|exact N|lia]|].
    unfold max_block in I. rewrite WriteProofs.u64_small in I by (unfold in_u64, two64; lia). set (d := 40 + (240 + 4 * ns) + 2 * paramMem rl + 2 * (4 * ns)) in *.
    assert (D0 : 0 < d) by (unfold d; lia). pose proof (Z.div_pos 1073741824 d ltac:(lia) D0) as Q0. assert (B : Z.of_nat (snd b) <= 1073741824 / d) by lia.
    pose proof (Z.mul_div_le 1073741824 d D0) as X. assert (Z.of_nat (snd b) * d <= 1073741824 / d * d) by (apply Z.mul_le_mono_nonneg_r; lia). lia.
  - intros x _. eapply within_mono; [apply empty_within; [exact P|exact N]|lia].
Qed.
Print Assumptions C106_memory_limit.
(** The limit is used: with 1000 samples and whole headers, a full block on four processes
    needs all but 1685688 bytes of it when it is written. *)
Example C106_nonvacuous : paramMem set_rule = 256 /\ max_block 1000 256 = 83938 /\
  1024 * 1024 * 1024 - in_use (firstn 18 (group_events 4 1000000000 set_rule 1000 [(Z.to_nat 83938, Z.to_nat 83938)])) = 1685688.
Proof. split; [reflexivity|]. split; vm_compute; reflexivity. Qed.
