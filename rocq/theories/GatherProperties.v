(** C60, C61: gathers. *)
From Verif Require Import Base DecompModel DecompSpec DecompProofs GatherModel GatherProofs.

(** ---- C60 ---- *)
(** [g] lists the maximal runs of [l] in order: written out they give [l] again, no
    run is empty and neighbouring runs have different keys. *)
Definition run_lengths (l : list key) (g : list info) : Prop :=
  flat_map (fun i => repeat (snd i) (fst i)) g = l /\ (forall i, In i g -> (0 < fst i)%nat) /\
  forall a x y b, g = a ++ x :: y :: b -> snd x <> snd y.
Lemma differ_spec g : differ g -> forall a x y b, g = a ++ x :: y :: b -> snd x <> snd y.
Proof.
  induction g as [|z g IH]; intros D a x y b E; [destruct a; discriminate|]. apply differ_cons in D. destruct D as (D1 & D2). destruct a as [|w a].
  - cbn in E. injection E as -> ->. cbn in D1. congruence.
  - cbn in E. injection E as -> E. apply (IH D2 a x y b E).
Qed.
(** Full statement: the same for every distribution of the traces, empty ranks and
    split gathers included, and without the last rank's read behind the array. *)
Theorem C60_gathers_partial : forall beyond p dat, (forall r, (r < p)%nat -> dat r <> []) -> contiguous (flat_map dat (seq 0 p)) ->
  exists g, gathers beyond p dat = Some g /\ run_lengths (flat_map dat (seq 0 p)) g.
Proof.
  intros beyond p dat NE CT. destruct (gathers_spec beyond p dat NE CT) as (g & E & X & D & P). exists g. split; [exact E|]. split; [exact X|]. split; [intros i I; apply (proj1 (Forall_forall _ _) P i I)|apply differ_spec, D].
Qed.
Print Assumptions C60_gathers_partial.
Definition ex_dat (r : nat) : list key := match r with 0%nat => [(1, 1); (1, 1); (1, 2)] | 1%nat => [(1, 2); (1, 2)] | 2%nat => [(1, 2); (2, 1); (2, 2)] | _ => [(2, 2)] end.
Ltac cut_b E I b := destruct b as [|? b]; cbn [app] in E; [first [discriminate E|injection E as ? E; cbn [In] in I; intuition congruence]|first [discriminate E|injection E as ? E; cut_b E I b]].
Ltac cut_a E I a b := destruct a as [|? a]; cbn [app] in E; [first [discriminate E|injection E as ? E; cut_b E I b]|first [discriminate E|injection E as ? E; cut_a E I a b]].
Example C60_demo : (forall r, (r < 4)%nat -> ex_dat r <> []) /\ contiguous (flat_map ex_dat (seq 0 4)) /\
  gathers (9, 9) 4 ex_dat = Some [(2%nat, (1, 1)); (4%nat, (1, 2)); (1%nat, (2, 1)); (2%nat, (2, 2))].
Proof.
  split; [intros r R; destruct r as [|[|[|[|]]]]; discriminate|]. split; [|reflexivity]. cbn. intros a k b c m E I.
  cut_a E I a b.
Qed.
(** Traces 1 | 1 2 | 1 on three ranks, the gather 1 not contiguous: rank 0 adds the
    first run of rank 2 as rank 1's front matches, and rank 2's run is listed again. *)
Theorem C60_split_gather_refuted : exists p (dat : nat -> list key), (forall r, (r < p)%nat -> dat r <> []) /\ exists g, gathers (9, 9) p dat = Some g /\ length (flat_map (fun i => repeat (snd i) (fst i)) g) <> length (flat_map dat (seq 0 p)).
Proof.
  exists 3%nat, (fun r => match r with 0%nat => [(1, 1)] | 1%nat => [(1, 1); (2, 2)] | _ => [(1, 1)] end). split; [intros [|[|r]] R; discriminate|].
  eexists. split; [reflexivity|]. vm_compute. discriminate.
Qed.
Print Assumptions C60_split_gather_refuted.
(** The last rank reads behind the gathered keys whenever it has a gather of its own. *)
Theorem C60_reads_behind_refuted : forall p dat, (0 < p)%nat -> (forall r, (r < p)%nat -> dat r <> []) ->
  let ll := fun r => match lline (dat r) with Some l => l | None => [] end in
  (p = 1%nat \/ 1 < length (ll (p - 1)%nat))%nat -> reads_inside p ll (p - 1) = false.
Proof.
  intros p dat P NE ll H. unfold reads_inside. replace (p - 1 + 1)%nat with p by lia. rewrite Nat.ltb_irrefl.
  assert (L : (starts ll (p - 1) < length (ll (p - 1)))%nat); [|apply Nat.ltb_lt in L; rewrite L; reflexivity].
  assert (N : (1 <= length (ll (p - 1)))%nat).
  { unfold ll. specialize (NE (p - 1)%nat ltac:(lia)). destruct (dat (p - 1)%nat) as [|k l]; [congruence|]. cbn [lline]. destruct (runs_shape l k 1 ltac:(lia)) as (A & _). destruct (runs k 1 l); [congruence|cbn; lia]. }
  unfold starts. destruct H as [->|H]; [cbn; exact N|]. destruct (_ && _); lia.
Qed.
Print Assumptions C60_reads_behind_refuted.
(** A rank without traces reads a parameter that is not there. *)
Theorem C60_empty_rank_refuted : forall beyond p dat r, (r < p)%nat -> dat r = [] -> gathers beyond p dat = None.
Proof.
  intros beyond p dat r R E. unfold gathers. replace (existsb _ _) with true; [reflexivity|]. symmetry. apply existsb_exists. exists r. split; [apply in_seq; lia|]. rewrite E. reflexivity.
Qed.
Print Assumptions C60_empty_rank_refuted.

(** ---- C61 ---- *)
(** With one gather operation: every gather is processed by one rank in one round, and
    the traces read for it are its traces; the traces of the file are those of the
    gathers in turn. *)
Theorem C61_each_gather_once_partial : forall n p, Z.of_nat n < two64 -> (0 < p)%nat -> forall g, (g < n)%nat ->
  exists! ri, (fst ri < p)%nat /\ nth_error (gNums 1 n p (fst ri)) (snd ri) = Some g.
Proof.
  intros n p N P g G. exists (g mod p, g / p)%nat. cbn [fst snd]. pose proof (Nat.mod_upper_bound g p ltac:(lia)) as MB. pose proof (Nat.div_mod g p ltac:(lia)) as DM. split.
  - cbn [fst snd]. split; [exact MB|]. rewrite gNums_nth by assumption. replace (g / p * p + g mod p)%nat with g by lia. destruct (Nat.ltb_spec g n); [reflexivity|lia].
  - intros (r, i) (R & H). cbn [fst snd] in *. rewrite gNums_nth in H by assumption. destruct (Nat.ltb (i * p + r) n); [|discriminate]. injection H as H.
    assert (g / p = i)%nat by (symmetry; apply (Nat.div_unique g p i r); lia). assert (g mod p = r)%nat by (symmetry; apply (Nat.mod_unique g p i r); lia). congruence.
Qed.
Print Assumptions C61_each_gather_once_partial.
Theorem C61_gather_contents_partial : forall A (gs : list (list A)) p r i g, Z.of_nat (length gs) < two64 -> (r < p)%nat ->
  let sizes := map (@length A) gs in
  nth_error (gNums 1 (length gs) p r) i = Some g ->
  firstn (iGSz sizes 1 p r i) (skipn (read_pos sizes 1 p r i) (concat gs)) = nth g gs [].
Proof.
  intros A gs p r i g N R sizes H. rewrite gNums_nth in H by assumption. destruct (Nat.ltb_spec (i * p + r) (length gs)) as [L|]; [|discriminate]. injection H as <-.
  assert (NS : Z.of_nat (length sizes) < two64) by (unfold sizes; rewrite map_length; exact N). rewrite iGSz_one, read_pos_one by assumption. unfold sizes. change 0%nat with (@length A []) at 1. rewrite map_nth. apply concat_slice, L.
Qed.
Print Assumptions C61_gather_contents_partial.
(** All ranks take part in the same number of rounds. *)
Theorem C61_rounds_agree_partial : forall n p r q, (r < p)%nat -> (q < p)%nat -> rounds_of 1 n p r = rounds_of 1 n p q.
Proof.
  intros n p r q R Q. unfold rounds_of, extra. rewrite !gNums_one, !map_length, !seq_length.
  pose proof (max_in (map (numGather n p) (seq 0 p)) (numGather n p r) ltac:(apply in_map, in_seq; lia)). pose proof (max_in (map (numGather n p) (seq 0 p)) (numGather n p q) ltac:(apply in_map, in_seq; lia)). lia.
Qed.
Print Assumptions C61_rounds_agree_partial.
Example C61_demo : map (gNums 1 7 3) [0; 1; 2]%nat = [[0; 3; 6]; [1; 4]; [2; 5]]%nat /\ read_pos [2; 1; 4; 3; 1; 1; 5]%nat 1 3 1 1 = 10%nat /\ map (rounds_of 1 7 3) [0; 1; 2]%nat = [3; 3; 3]%nat.
Proof. repeat split. Qed.
(** With two gather operations in the chain every gather is processed twice. *)
Theorem C61_processed_twice_refuted : forall n p r i g, Z.of_nat n < two64 -> (r < p)%nat -> nth_error (gNums 1 n p r) i = Some g ->
  nth_error (gNums 2 n p r) i = Some g /\ nth_error (gNums 2 n p r) (i + numGather n p r) = Some g.
Proof.
  intros n p r i g N R H. pose proof H as H1. rewrite gNums_one in H1. set (m := map (fun i => (i * p + r)%nat) (seq 0 (numGather n p r))) in *.
  assert (E : gNums 2 n p r = m ++ m) by (unfold gNums; cbn [repeat concat]; rewrite app_nil_r; reflexivity). assert (LM : length m = numGather n p r) by (unfold m; rewrite map_length, seq_length; reflexivity).
  assert (L : (i < length m)%nat) by (apply nth_error_Some; congruence). rewrite E. split; [rewrite nth_error_app1 by exact L; exact H1|]. rewrite nth_error_app2 by lia. replace (i + numGather n p r - length m)%nat with i by lia. exact H1.
Qed.
Print Assumptions C61_processed_twice_refuted.
(** And the ranks then make different numbers of collective calls: the program hangs. *)
Theorem C61_rounds_differ_refuted : exists n p r q, (r < p)%nat /\ (q < p)%nat /\ rounds_of 2 n p r <> rounds_of 2 n p q.
Proof. exists 3%nat, 2%nat, 0%nat, 1%nat. split; [lia|]. split; [lia|]. discriminate. Qed.
Print Assumptions C61_rounds_differ_refuted.
