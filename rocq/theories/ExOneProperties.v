(** C114: what examples/example1.cc and examples/example1.c write. *)
From Coq Require Import Reals Lra.
From Flocq Require Import Core IEEE754.BinarySingleNaN.
From Verif Require Import Base DecompModel DecompSpec DecompProofs NumEncModel NumEncSpec NumEncProofs CharEncModel CharEncProofs LayoutModel LayoutProofs DataIOModel DataIOProofs
  RuleModel RuleProofs DoubleModel ParamModel ParamProofs HeaderProofs ScalarProofs FileSpec FileModel FileProofs WriteSpec WriteProofs ParamProperties ReadProofs OpenProofs FileProperties TraceProperties.
From Verif Require Import FloatModel FloatProofs AngleModel SetOpsModel SetOpsProofs CopySpec CopyProofs ExampleModel ExampleProofs CopyProperties PieceProofs CreateModel CreateSpec CreateProofs CreateProperties CreateCModel CreateCSpec CreateCProofs ExOneModel ExOneProofs.
Import ListNotations.
Open Scope Z_scope.

Lemma one_makeable maxSize : 8480 <= maxSize -> makeable maxSize one_nt one_ns one_inc 4000000.
Proof.
  intros M. constructor; unfold one_nt, one_ns; try lia; vm_compute; reflexivity.
Qed.
(** C114: every rank of any number of processes can make its calls. *)
Theorem C114_runs : forall sizes1 sizes2 p r, 0 <= r < p ->
  (exists ops, example1_cc sizes1 sizes2 p r = Some ops /\ length ops = 6%nat) /\ (exists ops, example1_c sizes1 p r = Some ops /\ length ops = 5%nat).
Proof.
  intros sizes1 sizes2 p r R. pose proof (one_makeable 8480 ltac:(lia)) as CR. split.
  - destruct (make_calls _ _ _ _ _ CR sizes1 sizes2 p r R) as (off & lnt & prm & _ & _ & _ & _ & E & _). eexists. split; [exact E|reflexivity].
  - destruct (make_calls_c _ _ _ _ _ CR sizes1 p r R) as (off & lnt & prm & _ & _ & _ & _ & E & _). eexists. split; [exact E|reflexivity].
Qed.
Print Assumptions C114_runs.

(** The calls of a run on p processes: all of either program. *)
Definition run_of_example1 (p : nat) (h : history) : Prop :=
  (exists sizes1 sizes2 : nat -> list Z, forall r, (r < p)%nat -> example1_cc (sizes1 r) (sizes2 r) (Z.of_nat p) (Z.of_nat r) = Some (rank_ops h r)) \/
  (exists sizes : nat -> list Z, forall r, (r < p)%nat -> example1_c (sizes r) (Z.of_nat p) (Z.of_nat r) = Some (rank_ops h r)).
(** What trace i of the file has to hold. *)
Record example1_trace (f : file) (i : Z) : Prop := mkOne {
  e1_coordinates : forall l c, In (l, c) created_coordinates -> coordinate (disk_header f 1000 i) l 71 = IZR (c + i);
  e1_inline : int32_at (disk_header f 1000 i) 189 = 2400 + i;
  e1_crossline : int32_at (disk_header f 1000 i) 193 = 1600 + i;
  e1_number : int32_at (disk_header f 1000 i) 5 = i;
  e1_offset : int32_at (disk_header f 1000 i) 37 = 0;
  e1_samples : forall k, 0 <= k < 1000 ->
    is_finite (dec_f (disk_sample f 1000 i k)) = true /\ B2R (dec_f (disk_sample f 1000 i k)) = single (IZR (i * 1000 + k)) }.

Lemma one_all maxSize p h f0 maxSize' sizes' : 8480 <= maxSize -> (0 < p)%nat -> file_bytes f0 -> 3600 <= maxSize' -> (forall x, In x h -> (fst x < p)%nat) -> run_of_example1 p h ->
  exists f' rd, write_file maxSize p h f0 = Some f' /\ fsize f' = 169603600 /\ open_file maxSize' sizes' f' = Some rd /\
  r_ns rd = 1000 /\ r_nt rd = 40000 /\ r_inc rd = dmul incFactor (d_of_Z 2304) /\ firstn 10 (r_text rd) = create_text /\ (forall i, 0 <= i < 40000 -> example1_trace f' i).
Proof.
  intros M P FB M' RK [(sizes1 & sizes2 & RUN)|(sizes & RUN)].
  - destruct (made maxSize one_nt one_ns one_inc 4000000 (one_makeable maxSize M) p h f0 maxSize' sizes' P FB M' sizes1 sizes2 RK RUN) as (f' & rd & W & S & O & A1 & A2 & A3 & A4 & A5).
    exists f', rd. split; [exact W|]. split; [exact S|]. split; [exact O|]. split; [exact A1|]. split; [exact A2|]. split; [exact A3|]. split; [exact A4|].
    intros i I. pose proof (A5 i I) as T. destruct (C107_exact_small f' one_ns i T ltac:(lia)) as (X1 & X2 & X3 & _). destruct T as [_ _ _ T4 T5 T6]. constructor; assumption.
  - destruct (made_c maxSize one_nt one_ns one_inc 4000000 (one_makeable maxSize M) p h f0 maxSize' sizes' P FB M' sizes RK RUN) as (f' & rd & W & S & O & A1 & A2 & A3 & A4 & A5).
    exists f', rd. split; [exact W|]. split; [exact S|]. split; [exact O|]. split; [exact A1|]. split; [exact A2|]. split; [exact A3|]. split; [exact A4|].
    intros i I. destruct (A5 i I) as [T1 T2 T3 T4 T5 T6]. constructor; try assumption. intros l c L. change 1000 with one_ns. rewrite (T1 l c L), plus_IZR. f_equal. rewrite single_rnd. apply FloatProofs.int_rnd. unfold two24. lia.
Qed.

(** C114: either program, on any number of processes and with any interleaving of their
    calls, leaves 40000 traces of 1000 samples with the promised headers and samples.
    Missing: the interval. *)
Theorem C114_created_partial :
  forall maxSize p h f0 maxSize' sizes', 8480 <= maxSize -> (0 < p)%nat -> file_bytes f0 -> 3600 <= maxSize' -> (forall x, In x h -> (fst x < p)%nat) -> run_of_example1 p h ->
  exists f' rd, write_file maxSize p h f0 = Some f' /\ fsize f' = 169603600 /\ open_file maxSize' sizes' f' = Some rd /\
  r_ns rd = 1000 /\ r_nt rd = 40000 /\ firstn 10 (r_text rd) = create_text /\ (forall i, 0 <= i < 40000 -> example1_trace f' i).
Proof.
  intros maxSize p h f0 maxSize' sizes' M P FB M' RK RUN. destruct (one_all maxSize p h f0 maxSize' sizes' M P FB M' RK RUN) as (f' & rd & W & S & O & A1 & A2 & _ & A4 & A5). exists f', rd. auto 10.
Qed.
Print Assumptions C114_created_partial.

(** C114 refuted: the interval read back is 2.304 ms, not four seconds (the argument), nor
    four milliseconds, nor four microseconds (the comment). *)
Theorem C114_interval_refuted :
  forall maxSize p h f0 maxSize' sizes', 8480 <= maxSize -> (0 < p)%nat -> file_bytes f0 -> 3600 <= maxSize' -> (forall x, In x h -> (fst x < p)%nat) -> run_of_example1 p h ->
  exists f' rd, write_file maxSize p h f0 = Some f' /\ open_file maxSize' sizes' f' = Some rd /\
  (Rabs (B2R (r_inc rd) - 2304 / 1000000) <= / 1000000000)%R /\ B2R (r_inc rd) <> 4%R /\ B2R (r_inc rd) <> (4 / 1000)%R /\ B2R (r_inc rd) <> (4 / 1000000)%R.
Proof.
  intros maxSize p h f0 maxSize' sizes' M P FB M' RK RUN. destruct (one_all maxSize p h f0 maxSize' sizes' M P FB M' RK RUN) as (f' & rd & W & S & O & _ & _ & A3 & _).
  exists f', rd. split; [exact W|]. split; [exact O|]. rewrite A3. clear - M. destruct (inc_value 2304 ltac:(lia)) as (_ & B). unfold val in B.
  assert (X : (Rabs (B2R (dmul incFactor (d_of_Z 2304)) - 2304 / 1000000) <= / 1000000000)%R).
  { eapply Rle_trans; [exact B|]. assert (S : (bpow radix2 (-51) <= bpow radix2 (-20))%R) by (apply bpow_le; lia). assert (U : (bpow radix2 (-20) = / 1048576)%R) by (cbn; lra). 
    assert (S2 : (bpow radix2 (-51) <= bpow radix2 (-30))%R) by (apply bpow_le; lia). assert (U2 : (bpow radix2 (-30) = / 1073741824)%R) by (cbn; lra). lra. }
  split; [exact X|]. apply Rabs_le_inv in X. set (v := B2R _) in *. clearbody v. repeat split; intros E; rewrite E in X; lra.
Qed.
Print Assumptions C114_interval_refuted.

(** One process makes the file, with either program. *)
Example C114_nonvacuous :
  (exists h, (forall x, In x h -> (fst x < 1)%nat) /\ run_of_example1 1 h /\ length h = 6%nat) /\ (exists h, (forall x, In x h -> (fst x < 1)%nat) /\ run_of_example1 1 h /\ length h = 5%nat).
Proof.
  assert (RO : forall ops r, (r < 1)%nat -> rank_ops (map (pair 0%nat) ops) r = ops).
  { intros ops r R. assert (r = 0%nat) as -> by lia. unfold rank_ops. induction ops as [|o ops IH]; [reflexivity|]. cbn [map filter fst Nat.eqb snd]. f_equal. exact IH. }
  assert (IN : forall ops x, In x (map (pair 0%nat) ops : history) -> (fst x < 1)%nat) by (intros ops x I; apply in_map_iff in I; destruct I as (o & <- & _); cbn; lia).
  destruct (C114_runs [] [] 1 0 ltac:(lia)) as ((ops & E & L) & (ops' & E' & L')). split.
  - exists (map (pair 0%nat) ops). split; [apply IN|]. split; [|rewrite map_length; exact L]. left. exists (fun _ => []), (fun _ => []). intros r R. rewrite RO by exact R. assert (r = 0%nat) as -> by lia. exact E.
  - exists (map (pair 0%nat) ops'). split; [apply IN|]. split; [|rewrite map_length; exact L']. right. exists (fun _ => []). intros r R. rewrite RO by exact R. assert (r = 0%nat) as -> by lia. exact E'.
Qed.
