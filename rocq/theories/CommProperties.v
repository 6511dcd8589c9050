(** C62, C72, C73: distributed vector, log, rank offsets. *)
From Verif Require Import Base DecompModel DecompSpec DecompProofs CommModel.

(** ---- C72 ---- *)
(** Is this call the report of an error? *)
Definition reports_error (c : log_call) : Prop := (exists v, c = Rec Error v) \/ (exists v, c = RecIf Error v true).
Lemma record_err st v l : isErr (log_record st v l) = status_eqb st Error || isErr l.
Proof. unfold log_record, isErr. destruct (v <=? maxLevel l), st; reflexivity. Qed.
Theorem C72_error_state : forall lvl cs, isErr (log_run (newLogger lvl) cs) = true <-> Exists reports_error cs.
Proof.
  intros lvl cs. assert (G : forall cs l, isErr (log_run l cs) = true <-> isErr l = true \/ Exists reports_error cs).
  { clear. induction cs as [|c cs IH]; intros l; [cbn; split; [auto|intros [H|H]; [exact H|inversion H]]|]. cbn [log_run fold_left]. fold (log_run (log_step l c) cs). rewrite IH, Exists_cons.
    assert (S : isErr (log_step l c) = true <-> isErr l = true \/ reports_error c).
    { destruct c as [st v|st v b|]; cbn [log_step].
      - rewrite record_err, orb_true_iff. split; [intros [H|H]; [right; left; exists v; destruct st; try discriminate; reflexivity|left; exact H]|].
        intros [H|[(w & H)|(w & H)]]; [right; exact H|injection H as -> _; left; reflexivity|discriminate H].
      - unfold log_record_if. destruct b.
        + rewrite record_err, orb_true_iff. split; [intros [H|H]; [right; right; exists v; destruct st; try discriminate; reflexivity|left; exact H]|].
          intros [H|[(w & H)|(w & H)]]; [right; exact H|discriminate H|injection H as -> _; left; reflexivity].
        + split; [auto|]. intros [H|[(w & H)|(w & H)]]; [exact H|discriminate H|discriminate H].
      - split; [auto|]. intros [H|[(w & H)|(w & H)]]; [exact H|discriminate H|discriminate H]. }
    rewrite S. tauto. }
  rewrite G. split; [intros [H|H]; [discriminate H|exact H]|auto].
Qed.
Print Assumptions C72_error_state.
Theorem C72_sticky : forall l cs, isErr l = true -> isErr (log_run l cs) = true.
Proof.
  intros l cs. revert l. induction cs as [|c cs IH]; intros l H; [exact H|]. cbn [log_run fold_left]. apply IH. destruct c as [st v|st v []|]; cbn [log_step log_record_if procLog snd].
  - rewrite record_err, H. apply orb_true_r.
  - rewrite record_err, H. apply orb_true_r.
  - exact H.
  - exact H.
Qed.
Print Assumptions C72_sticky.
(** What is kept until the next print-out: the reports within the verbosity, newest first. *)
Fixpoint kept (lvl : Z) (cs : list log_call) : list item :=
  match cs with
  | [] => []
  | Rec s v :: r | RecIf s v true :: r => kept lvl r ++ (if v <=? lvl then [mkItem s v] else [])
  | RecIf _ _ false :: r => kept lvl r
  | Proc :: r => kept lvl r
  end.
Definition no_proc (cs : list log_call) : Prop := ~ In Proc cs.
Theorem C72_reports_kept : forall lvl before cs, no_proc cs -> loglist (log_run (newLogger lvl) (before ++ Proc :: cs)) = kept lvl cs /\ loglist (log_run (newLogger lvl) cs) = kept lvl cs.
Proof.
  intros lvl before cs N.
  assert (M : forall c l, maxLevel (log_step l c) = maxLevel l).
  { intros [st v|st v []|] l; cbn [log_step log_record_if procLog snd]; try reflexivity; unfold log_record; destruct (v <=? maxLevel l), st; reflexivity. }
  assert (MM : forall cs l, maxLevel (log_run l cs) = maxLevel l) by (induction cs0 as [|c cs0 IH]; intros l; [reflexivity|]; cbn [log_run fold_left]; rewrite <- (M c l); apply IH).
  assert (G : forall cs l, no_proc cs -> maxLevel l = lvl -> loglist (log_run l cs) = kept lvl cs ++ loglist l).
  { clear -M. unfold no_proc. induction cs as [|c cs IH]; intros l N L; [reflexivity|]. cbn [log_run fold_left]. fold (log_run (log_step l c) cs). rewrite IH; [|intros I; apply N; right; exact I|rewrite M; exact L].
    destruct c as [st v|st v []|]; cbn [log_step log_record_if kept]; [| |reflexivity|exfalso; apply N; left; reflexivity];
      rewrite <- app_assoc; f_equal; unfold log_record; rewrite L; destruct (v <=? lvl), st; reflexivity. }
  split; [|rewrite G by (assumption || reflexivity); apply app_nil_r]. unfold log_run at 1. rewrite fold_left_app. cbn [fold_left]. fold (log_run (newLogger lvl) before).
  set (l := log_step (log_run (newLogger lvl) before) Proc). change (loglist (log_run l cs) = kept lvl cs). rewrite G; [cbn; apply app_nil_r|exact N|]. unfold l. rewrite M, MM. reflexivity.
Qed.
Print Assumptions C72_reports_kept.
Example C72_demo : Exists reports_error [Rec Warning 0; RecIf Error 5 true; Proc] /\ ~ Exists reports_error [Rec Warning 0; RecIf Error 5 false] /\ no_proc [Rec Warning 0; Rec Debug 7] /\
  numStat Warning (log_run (newLogger 0) [Rec Warning 0; Rec Debug 7]) = 1%nat.
Proof.
  split; [right; left; right; exists 5; reflexivity|]. split; [|split; [intros [H|[H|[]]]; discriminate|reflexivity]].
  intros H. inversion H as [? ? [(v & E)|(v & E)]|? ? H']; subst; try discriminate. inversion H' as [? ? [(v & E)|(v & E)]|? ? H'']; subst; try discriminate. inversion H''.
Qed.

(** ---- C73 ---- *)
Definition world (w : nat) : nat := w.
Theorem C73_prefix_sums : forall v p, (forall w, (w < p)%nat -> 0 <= v w) -> sum_below v p < two64 -> forall w, (w < p)%nat -> comm_offset world v w = sum_below v w.
Proof.
  intros v p N B w H. assert (G : forall k, (w <= k <= p)%nat -> 0 <= sum_below v w <= sum_below v k).
  { assert (NN : forall k, (k <= p)%nat -> 0 <= sum_below v k).
    { induction k as [|k IH]; intros K; [reflexivity|]. unfold sum_below in *. rewrite seq_S, map_app, zsum_app. cbn. specialize (N k ltac:(lia)). specialize (IH ltac:(lia)). lia. }
    induction k as [|k IH]; intros K; [replace w with 0%nat by lia; split; reflexivity|]. destruct (Nat.eq_dec w (S k)) as [->|]; [split; [apply NN; lia|lia]|].
    specialize (IH ltac:(lia)). unfold sum_below in *. rewrite (seq_S k), map_app, zsum_app. cbn [map Nat.add]. specialize (N k ltac:(lia)). cbn. lia. }
  unfold comm_offset, world, exscan. destruct w as [|w]; [reflexivity|]. cbn [Nat.eqb]. apply u64_small. unfold in_u64. specialize (G p ltac:(lia)). lia.
Qed.
Print Assumptions C73_prefix_sums.
(** So [offset, offset + value) of the ranks tile [0, total). *)
Theorem C73_ranges_tile : forall v p, (forall w, (w < p)%nat -> 0 <= v w) -> sum_below v p < two64 ->
  forall i, 0 <= i < comm_sum v p -> exists! w, (w < p)%nat /\ comm_offset world v w <= i < comm_offset world v w + v w.
Proof.
  intros v p N B i I. assert (S1 : forall k, sum_below v (S k) = sum_below v k + v k) by (intros k; unfold sum_below; rewrite seq_S, map_app, zsum_app; cbn; lia).
  assert (NN : forall k, (k <= p)%nat -> 0 <= sum_below v k) by (induction k as [|k IH]; intros K; [reflexivity|]; rewrite S1; specialize (N k ltac:(lia)); specialize (IH ltac:(lia)); lia).
  assert (CS : comm_sum v p = sum_below v p) by (apply u64_small; unfold in_u64; specialize (NN p (Nat.le_refl p)); lia). rewrite CS in I.
  assert (MO : forall a b, (a <= b <= p)%nat -> sum_below v a <= sum_below v b).
  { intros a b H. induction b as [|b IH]; [replace a with 0%nat by lia; lia|]. destruct (Nat.eq_dec a (S b)) as [->|]; [lia|]. rewrite S1. specialize (N b ltac:(lia)). specialize (IH ltac:(lia)). lia. }
  assert (E : exists w, (w < p)%nat /\ sum_below v w <= i < sum_below v w + v w).
  { clear CS. assert (G : forall k, (k <= p)%nat -> 0 <= i < sum_below v k -> exists w, (w < k)%nat /\ sum_below v w <= i < sum_below v w + v w).
    { induction k as [|k IH]; intros K J; [cbn in J; lia|]. rewrite S1 in J. destruct (Z.lt_ge_cases i (sum_below v k)) as [C|C]; [destruct (IH ltac:(lia) ltac:(lia)) as (w & W1 & W2); exists w; split; [lia|exact W2]|exists k; lia]. }
    apply (G p); [lia|exact I]. }
  destruct E as (w & W1 & W2). exists w. split; [rewrite (C73_prefix_sums v p N B w W1); auto|]. intros x (X1 & X2). rewrite (C73_prefix_sums v p N B x X1) in X2.
  destruct (Nat.lt_trichotomy w x) as [L|[->|L]]; [|reflexivity|].
  - pose proof (MO (S w) x ltac:(lia)) as M. rewrite S1 in M. lia.
  - pose proof (MO (S x) w ltac:(lia)) as M. rewrite S1 in M. lia.
Qed.
Print Assumptions C73_ranges_tile.
Example C73_demo : let v := fun w => match w with 0%nat => 5 | 1%nat => 0 | _ => 7 end in sum_below v 3 < two64 /\ map (comm_offset world v) [0; 1; 2]%nat = [0; 5; 5].
Proof. cbv zeta. split; vm_compute; reflexivity. Qed.
(** With a communicator that is not MPI_COMM_WORLD (here: the same two processes in
    the other order) the offsets are wrong. *)
Theorem C73_other_communicator_refuted : exists (crank : nat -> nat) (v : nat -> Z), (forall w, (w < 2)%nat -> (crank w < 2)%nat) /\ crank 0%nat <> crank 1%nat /\
  exists w, (w < 2)%nat /\ comm_offset crank v w <> zsum (map v (filter (fun q => Nat.ltb (crank q) (crank w)) (seq 0 2))).
Proof.
  exists (fun w => (1 - w)%nat), (fun w => Z.of_nat w + 3). split; [intros; lia|]. split; [discriminate|]. exists 0%nat. split; [lia|]. vm_compute. discriminate.
Qed.
Print Assumptions C73_other_communicator_refuted.

(** ---- C62 ---- *)
(** The value at index i after a history of sets. *)
Fixpoint last_set {V} (i : Z) (init : V) (h : list (Z * Z * V)) : V :=
  match h with [] => init | (_, j, v) :: h => last_set i (if j =? i then v else init) h end.
Lemma one_byte_ok n p i : in_u64 n -> 0 < p < two64 -> 0 <= i < n ->
  exists l, block_decomposition_location n p i = Some l /\ access_ok 1 n p l = true /\
    exists pc, block_decomposition n p (loc_rank l) = Some pc /\ global_offset pc + loc_index l = i.
Proof.
  intros N P I. destruct (location_inverse n p i N P I) as (r & li & pc & E & R & D & L & G). exists (mkLoc r li). split; [exact E|]. split; [|exists pc; auto].
  unfold access_ok, window_bytes. cbn [loc_rank loc_index]. rewrite D, Z.mul_1_r. destruct (Z.ltb_spec r p); [|lia]. destruct (Z.leb_spec 0 li); [|lia]. destruct (Z.leb_spec (li + 1) (local_size pc)); [reflexivity|lia].
Qed.
Theorem C62_shared_array_partial : forall V (zero : V) n p data dbg h, in_u64 n -> 0 < p < two64 ->
  (forall r i v, In (r, i, v) h -> 0 <= i < n /\ (dbg = true -> 0 < r)) ->
  exists d, dv_sets dbg 1 h (mkDvec n p data) = Some d /\
    forall i rank, 0 <= i < n -> (dbg = true -> 0 < rank) ->
      exists v0, dv_get dbg 1 zero rank i (mkDvec n p data) = Some v0 /\ dv_get dbg 1 zero rank i d = Some (last_set i v0 h).
Proof.
  intros V zero n p data dbg h N P. assert (DB : forall r, (dbg = true -> 0 < r) -> dbg && negb (0 <? r) = false).
  { intros r H. destruct dbg; [|reflexivity]. specialize (H eq_refl). destruct (Z.ltb_spec 0 r); [reflexivity|lia]. }
  assert (GET : forall data i rank, 0 <= i < n -> (dbg = true -> 0 < rank) -> exists l, block_decomposition_location n p i = Some l /\ dv_get dbg 1 zero rank i (mkDvec n p data) = Some (data (loc_rank l) (loc_index l))).
  { intros dt i rank I R. destruct (one_byte_ok n p i N P I) as (l & E & A & _). exists l. split; [exact E|]. unfold dv_get. cbn [dv_size dv_ranks dv_data]. destruct (Z.ltb_spec n i); [lia|]. rewrite E, (DB rank R), A. reflexivity. }
  revert data. induction h as [|((r, j), v) h IH]; intros data H.
  - exists (mkDvec n p data). split; [reflexivity|]. intros i rank I R. destruct (GET data i rank I R) as (l & _ & E). exists (data (loc_rank l) (loc_index l)). auto.
  - destruct (H r j v (or_introl eq_refl)) as (J & R). destruct (one_byte_ok n p j N P J) as (l & E & A & pc & D & G).
    cbn [dv_sets]. unfold dv_set. cbn [dv_size dv_ranks dv_data]. destruct (Z.ltb_spec n j); [lia|]. rewrite E, (DB r R), A. cbn [obind].
    destruct (IH (fun r0 k => if (r0 =? loc_rank l) && (k =? loc_index l) then v else data r0 k)) as (d & S & Q); [intros; apply (H r0 i v0); right; assumption|].
    exists d. split; [exact S|]. intros i rank I RK. destruct (Q i rank I RK) as (v0 & V0 & V1).
    destruct (GET data i rank I RK) as (l2 & E2 & G2). exists (data (loc_rank l2) (loc_index l2)). split; [exact G2|]. rewrite V1. cbn [last_set]. do 2 f_equal.
    destruct (GET (fun r0 k => if (r0 =? loc_rank l) && (k =? loc_index l) then v else data r0 k) i rank I RK) as (l3 & E3 & G3). rewrite E2 in E3. injection E3 as <-. rewrite G3 in V0. injection V0 as <-.
    destruct (one_byte_ok n p i N P I) as (l4 & E4 & _ & pc4 & D4 & G4). rewrite E2 in E4. injection E4 as <-.
    destruct (Z.eqb_spec j i) as [->|NE].
    + rewrite E in E2. injection E2 as <-. rewrite !Z.eqb_refl. reflexivity.
    + destruct (Z.eqb_spec (loc_rank l2) (loc_rank l)) as [R1|]; [|reflexivity]. destruct (Z.eqb_spec (loc_index l2) (loc_index l)) as [R2|]; [|reflexivity]. exfalso. apply NE.
      rewrite <- G, <- G4, R2. rewrite R1, D in D4. injection D4 as <-. reflexivity.
Qed.
Print Assumptions C62_shared_array_partial.
Example C62_demo : option_map (dv_get true 1 0 2 3) (dv_sets true 1 [(1, 3, 42); (2, 4, 7); (2, 3, 43)] (mkDvec 10 3 (fun _ _ => 0))) = Some (Some 43).
Proof. reflexivity. Qed.
(** Rank 0 may neither set nor get anything while assertions are active. *)
Theorem C62_rank_zero_refuted : forall V (zero : V) ts i v n p data, in_u64 n -> 0 < p < two64 -> 0 <= i < n ->
  dv_set true ts 0 i v (mkDvec n p data) = None /\ dv_get true ts zero 0 i (mkDvec n p data) = None.
Proof.
  intros V zero ts i v n p data N P I. destruct (one_byte_ok n p i N P I) as (l & E & _). unfold dv_set, dv_get. cbn [dv_size dv_ranks]. destruct (Z.ltb_spec n i); [lia|]. rewrite E. split; reflexivity.
Qed.
Print Assumptions C62_rank_zero_refuted.
(** With elements of more than one byte the last element of every rank lies outside
    the memory reserved for it. *)
Theorem C62_window_too_small_refuted : forall V (zero : V) ts rank dbg n p data r pc, in_u64 n -> 0 < p < two64 -> 1 < ts -> 0 <= r < p ->
  block_decomposition n p r = Some pc -> 0 < local_size pc ->
  let i := global_offset pc + local_size pc - 1 in 0 <= i < n /\ dv_get dbg ts zero rank i (mkDvec n p data) = None /\ forall v, dv_set dbg ts rank i v (mkDvec n p data) = None.
Proof.
  intros V zero ts rank dbg n p data r pc N P T R E L i. pose proof (piece_bounds n p r N ltac:(lia) R) as (pc' & E' & B1 & _ & B2). rewrite E in E'. injection E' as <-.
  assert (LOC : block_decomposition_location n p i = Some (mkLoc r (local_size pc - 1))).
  { unfold i. replace (global_offset pc + local_size pc - 1) with (global_offset pc + (local_size pc - 1)) by lia. apply location_of_piece; try assumption. lia. }
  assert (A : access_ok ts n p (mkLoc r (local_size pc - 1)) = false).
  { unfold access_ok, window_bytes. cbn [loc_rank loc_index]. rewrite E. assert (local_size pc < (local_size pc - 1 + 1) * ts) by (replace (local_size pc - 1 + 1) with (local_size pc) by lia; replace (local_size pc) with (local_size pc * 1) at 1 by lia; apply Z.mul_lt_mono_pos_l; lia).
    destruct (Z.leb_spec ((local_size pc - 1 + 1) * ts) (local_size pc)); [lia|]. apply andb_false_r. }
  split; [lia|]. unfold dv_get, dv_set. cbn [dv_size dv_ranks]. destruct (Z.ltb_spec n i); [lia|]. rewrite LOC, A. destruct (dbg && negb (0 <? rank)); auto.
Qed.
Print Assumptions C62_window_too_small_refuted.
(** The index equal to the size is not rejected. *)
Theorem C62_index_at_end_refuted : exists n p, in_u64 n /\ 0 < p < two64 /\ forall V (zero : V) rank dbg data, dv_get dbg 1 zero rank n (mkDvec n p data) = None /\ forall v, dv_set dbg 1 rank n v (mkDvec n p data) = None.
Proof.
  exists 4, 2. split; [split; [lia|reflexivity]|]. split; [split; [lia|reflexivity]|]. intros V zero rank dbg data. unfold dv_get, dv_set. cbn [dv_size dv_ranks].
  replace (block_decomposition_location 4 2 4) with (Some (mkLoc 2 0)) by reflexivity. change (4 <? 4) with false. cbv iota. split; [|intros v]; destruct (dbg && negb (0 <? rank)); reflexivity.
Qed.
Print Assumptions C62_index_at_end_refuted.
