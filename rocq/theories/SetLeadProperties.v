(** C104: the first key of a sorted file, exactly and for any scales. *)
From Coq Require Import Reals Lra Permutation Sorted.
From Flocq Require Import Core IEEE754.BinarySingleNaN.
From Verif Require Import Base DecompModel DecompSpec DecompProofs NumEncModel NumEncSpec NumEncProofs CharEncModel CharEncProofs LayoutModel LayoutProofs DataIOModel DataIOProofs
  RuleModel RuleProofs DoubleModel ParamModel ParamProofs HeaderProofs ScalarProofs FileSpec FileModel FileProofs WriteSpec WriteProofs RuleProperties ParamProperties ReadProofs OpenProofs FileProperties TraceProperties.
From Verif Require Import SortSpec SortModel SortProofs CompProofs SortProperties FlowModel FlowProofs FlowProperties CopySpec CopyProofs CopyProperties ExampleModel ExampleProofs SetFileModel SetFileSpec SetFileProofs SetOutProofs SetFileProperties SetSortModel SetSortSpec SetSortProofs SetSortProperties MultiSortSpec MultiSortProofs.
From Verif Require ExtremeProofs.
From Verif Require Import SetSortProperties MultiSortProperties.
Import ListNotations.
Open Scope Z_scope.

(** C104: whatever scale factors the traces have, the file the sort program writes has its
    first key (in-line number or coordinate, as an exact number) in ascending order. *)
Theorem C104_first_key : forall maxSize ns inc key rd f p type srt outmsg sizes0 (sizes : nat -> nat -> nat -> list Z) fuel fuel2 fds,
  3600 <= maxSize -> 2 * (240 + 4 * ns) <= maxSize -> 0 <= ns <= 32767 -> (0 < p)%nat -> 4 * Z.of_nat p <= r_nt rd ->
  set_input maxSize ns inc (rd, f) -> std_sort srt -> 35 <= type <= 41 ->
  sort_set fuel fuel2 maxSize sizes0 srt type [(rd, f)] (group_files key [(key, (rd, f))] p) p = Some fds ->
  exists perm, Permutation perm (zr (r_nt rd)) /\ StronglySorted (fun a b => (lead type (disk_header f ns a) <= lead type (disk_header f ns b))%R) perm /\
  forall h f0, file_bytes f0 -> (forall x, In x h -> (fst x < p)%nat) ->
  (forall r, (r < p)%nat -> set_calls maxSize (sizes r) sort_set_rule srt outmsg [(rd, f)] fds p r = Some (rank_ops h r)) ->
  exists f', write_file maxSize p h f0 = Some f' /\ forall b, 0 <= b < r_nt rd -> sorted_copy f (nth (Z.to_nat b) perm 0) f' b ns.
Proof.
  intros maxSize ns inc key rd f p type srt outmsg sizes0 sizes fuel fuel2 fds M1 M2 NS P FOUR GI SRT T ST.
  destruct (C104_sorted_file maxSize ns inc key rd f p type srt outmsg sizes0 sizes M1 M2 NS P FOUR GI SRT ltac:(clear -T; lia)) as (_ & H).
  destruct (H fuel fuel2 fds ST) as (_ & perm & PM & SS & _ & W). exists perm. split; [exact PM|]. split.
  - apply (sorted_weaken _ _ _) with (2 := SS). intros x y X Y Q. destruct (Rle_lt_dec (lead type (disk_header f ns x)) (lead type (disk_header f ns y))) as [L|L]; [exact L|].
    exfalso. apply Q. apply lead_across; [apply (si_bytes _ _ _ _ GI)|apply (si_bytes _ _ _ _ GI)|exact T|exact L].
  - intros h f0 FB RK RUN. destruct (W h f0 maxSize [] FB M1 RK RUN) as (f' & rd' & WR & _ & _ & _ & _ & _ & CP). exists f'. split; [exact WR|exact CP].
Qed.
Print Assumptions C104_first_key.
Example C104_first_key_nonvacuous : exists rd, set_input 4000 2 (r_inc rd) (rd, eight_traces) /\ r_nt rd = 8 /\ std_sort isort /\ 4 * Z.of_nat 2 <= r_nt rd /\
  forall a, 0 <= a < 8 -> int16_at (disk_header eight_traces 2 a) 71 = -100.
Proof. exact C104_nonvacuous. Qed.

Lemma sorted_nth {A} (Q : A -> A -> Prop) d : forall l, StronglySorted Q l -> forall i j, (i < j < length l)%nat -> Q (nth i l d) (nth j l d).
Proof.
  induction l as [|x l IH]; intros S i j B; [cbn in B; lia|]. inversion S as [|? ? S' F]; subst. destruct j as [|j]; [lia|]. cbn [length] in B. cbn [nth]. destruct i as [|i]; [|apply IH; [exact S'|lia]].
  rewrite Forall_forall in F. apply F, nth_In. lia.
Qed.
(** C104: the first key in the headers of the file written is in ascending order, as an exact
    number: for in-line order whatever the scales are, for source and receiver order when
    the scales of the input are plain (0, 1, or -10 to -10000), also if they differ. *)
Theorem C104_output_order : forall maxSize ns inc key rd f p type srt outmsg sizes0 (sizes : nat -> nat -> nat -> list Z) fuel fuel2 fds,
  3600 <= maxSize -> 2 * (240 + 4 * ns) <= maxSize -> 0 <= ns <= 32767 -> (0 < p)%nat -> 4 * Z.of_nat p <= r_nt rd ->
  set_input maxSize ns inc (rd, f) -> std_sort srt -> 35 <= type <= 41 ->
  (type <= 39 -> forall a, 0 <= a < r_nt rd -> plain_scale (int16_at (disk_header f ns a) 71)) ->
  sort_set fuel fuel2 maxSize sizes0 srt type [(rd, f)] (group_files key [(key, (rd, f))] p) p = Some fds ->
  forall h f0, file_bytes f0 -> (forall x, In x h -> (fst x < p)%nat) ->
  (forall r, (r < p)%nat -> set_calls maxSize (sizes r) sort_set_rule srt outmsg [(rd, f)] fds p r = Some (rank_ops h r)) ->
  exists f', write_file maxSize p h f0 = Some f' /\ forall b b', 0 <= b < b' -> b' < r_nt rd -> (lead type (disk_header f' ns b) <= lead type (disk_header f' ns b'))%R.
Proof.
  intros maxSize ns inc key rd f p type srt outmsg sizes0 sizes fuel fuel2 fds M1 M2 NS P FOUR GI SRT T PS ST h f0 FB RK RUN.
  destruct (C104_first_key maxSize ns inc key rd f p type srt outmsg sizes0 sizes fuel fuel2 fds M1 M2 NS P FOUR GI SRT T ST) as (perm & PM & SS & W).
  destruct (W h f0 FB RK RUN) as (f' & WR & CP). exists f'. split; [exact WR|]. intros b b' B B'. set (nt := r_nt rd) in *. clearbody nt. clear - PM SS CP T PS B B'.
  assert (LEN : length perm = Z.to_nat nt) by (rewrite (Permutation_length PM); unfold zr, zrange; rewrite map_length; apply seq_length).
  assert (LE : forall x, 0 <= x < nt -> lead type (disk_header f' ns x) = lead type (disk_header f ns (nth (Z.to_nat x) perm 0))).
  { intros x X. set (a := nth (Z.to_nat x) perm 0). assert (A : 0 <= a < nt) by (apply in_zr, (Permutation_in _ PM), nth_In; rewrite LEN; clear -X; lia). destruct (sc_copied _ _ _ _ _ (CP x X)) as [_ CI CC]. fold a in CI, CC. unfold lead.
    destruct (type <=? 37) eqn:E1; [apply CC; [apply PS; [clear -E1; lia|exact A]|cbn; tauto]|]. destruct (type <=? 39) eqn:E2; [apply CC; [apply PS; [clear -E2; lia|exact A]|cbn; tauto]|]. rewrite CI by (cbn; tauto). reflexivity. }
  rewrite !LE by (clear -B B'; lia). apply (sorted_nth _ 0 perm SS). rewrite LEN. clear -B B'. lia.
Qed.
Print Assumptions C104_output_order.
(** The eight traces have a plain scale. *)
Example C104_output_order_nonvacuous : forall a, 0 <= a < 8 -> plain_scale (int16_at (disk_header eight_traces 2 a) 71).
Proof. intros a A. destruct C104_nonvacuous as (_ & _ & _ & _ & _ & S). rewrite (S a A). unfold plain_scale. cbn. tauto. Qed.
