(** Properties C47, C48 and C09: writers that stop early, errors, IBM files. *)
From Coq Require Import Reals Lra Permutation Sorted.
From Flocq Require Import Core IEEE754.BinarySingleNaN.
From Verif Require Import Base NumEncModel NumEncSpec NumEncProofs CharEncModel LayoutModel LayoutProofs DataIOModel DataIOProofs
  RuleModel RuleProofs DoubleModel ParamModel ParamProofs HeaderProofs ScalarProofs FileSpec FileModel FileProofs WriteSpec WriteProofs ParamProperties ReadProofs OpenProofs FileProperties.
Open Scope Z_scope.
From Verif Require Import TraceProperties.

(** ---- C47: writers that die ---- *)
(** At any point of any history on a new file (before close), a reader sees no
    samples: the number of samples per trace is 0. *)
Theorem C47_no_samples_before_close_partial :
  forall maxSize nt ns h f maxSize' sizes rd,
  2 * (240 + 4 * ns) <= maxSize -> fits nt ns -> history_ok nt ns h -> run maxSize h empty_file = Some f -> 0 < maxSize' ->
  open_file maxSize' sizes f = Some rd -> r_ns rd = 0.
Proof.
  intros maxSize nt ns h f maxSize' sizes rd M F OK R M' O. destruct (run_content _ _ _ _ _ _ M F OK R) as (_ & _ & C3 & _).
  unfold open_file in O. destruct (3600 <=? fsize f); [|apply (f_equal (option_map r_ns)) in O; cbn [option_map r_ns] in O; congruence].
  unfold objHO in O. destruct (contig_read_exact f maxSize' sizes 0 getHOSz 0 (fun _ => 0) M' ltac:(unfold getHOSz; lia)) as (m & E & A).
  rewrite E in O. cbn [obind] in O.
  assert (Z0 : forall q, 0 <= q < 3600 -> m q = 0).
  { intros q Q. rewrite A. destruct (_ && _); [rewrite C3 by lia; reflexivity|reflexivity]. }
  rewrite (Z0 3220), (Z0 3221) in O by lia. change (read_ns 0 0) with 0 in O. destruct (getNt (fsize f) 0) as [n|]; [|discriminate]. cbn [obind] in O.
  apply (f_equal (option_map r_ns)) in O. cbn [option_map r_ns] in O. congruence.
Qed.
Print Assumptions C47_no_samples_before_close_partial.
(** But it can see traces: one trace of 15 samples without header is reported as a
    trace of 0 samples. *)
Definition dead : history := [(0%nat, WNs 15); (0%nat, WTrace [] (Range 0 1) (Some (demo_mem 3)) None 0)].
Lemma dead_ok : history_ok 1 15 dead.
Proof.
  intros h1 r o h2 E. unfold dead in E.
  destruct h1 as [|? h1]; [injection E as <- <- <-; exact Logic.I|]. injection E as <- E.
  destruct h1 as [|? h1]; [injection E as <- <- <-|destruct h1; discriminate].
  split; [reflexivity|]. split; [cbn; lia|]. intros m Q. injection Q as <-. apply demo_bytes.
Qed.
Theorem C47_traces_before_close_refuted :
  exists h f rd, run 4000 h empty_file = Some f /\ history_ok 1 15 h /\ open_file 4000 [] f = Some rd /\ r_nt rd = 1 /\ r_ns rd = 0.
Proof.
  assert (H : obind (run 4000 dead empty_file) (fun f => option_map (fun rd => (r_nt rd, r_ns rd)) (open_file 4000 [] f)) = Some (1, 0)) by (vm_compute; reflexivity).
  destruct (run 4000 dead empty_file) as [f|] eqn:E; [|discriminate]. cbn [obind] in H. destruct (open_file 4000 [] f) as [rd|] eqn:O; [|discriminate].
  cbn [option_map] in H. exists dead, f, rd. split; [exact E|]. split; [apply dead_ok|]. split; [exact O|]. split; congruence.
Qed.
Print Assumptions C47_traces_before_close_refuted.
Example C47_nonvacuous : fits 1 15 /\ history_ok 1 15 dead /\ exists f, run 4000 dead empty_file = Some f.
Proof. split; [unfold fits, two64; lia|]. split; [apply dead_ok|eexists; reflexivity]. Qed.

(** ---- C48: errors ---- *)
Theorem C48_oversized_rejected : forall w n, 32767 < n -> w_err (wlocal (WNs n) w) = true /\ w_ns (wlocal (WNs n) w) = w_ns w.
Proof. intros w n H. cbn [wlocal]. replace (32767 <? n) with true by lia. auto. Qed.
Print Assumptions C48_oversized_rejected.
(** Once every rank has recorded an error, whatever happens afterwards, closing
    leaves the file as it is. *)
Theorem C48_error_keeps_file_partial :
  forall maxSize p h h' f, (0 < p)%nat -> (forall r, (r < p)%nat -> w_err (rank_state h r) = true) ->
  close maxSize (ranks (h ++ h') p) f = Some f.
Proof.
  intros maxSize p h h' f P E.
  assert (X : forall w, In w (ranks (h ++ h') p) -> w_err w = true).
  { intros w W. apply in_ranks in W. destruct W as (r & R & <-). specialize (E r R). unfold rank_state, rank_ops in *. rewrite filter_app, map_app, fold_left_app.
    apply err_stays. exact E. }
  remember (ranks (h ++ h') p) as ws eqn:EW. assert (NE : ws <> []) by (subst ws; unfold ranks; destruct p; [lia|discriminate]).
  destruct ws as [|w0 ws]; [contradiction|]. unfold close.
  assert (EV : forall w, In w (w0 :: ws) -> close_events (w0 :: ws) w = []) by (intros w W; unfold close_events; rewrite (X w W); reflexivity).
  replace (forallb _ (w0 :: ws)) with true; [rewrite (EV w0 (or_introl eq_refl)); reflexivity|].
  symmetry. apply forallb_forall. intros w W. rewrite (EV w W), (EV w0 (or_introl eq_refl)). reflexivity.
Qed.
Print Assumptions C48_error_keeps_file_partial.
Example C48_nonvacuous : forall r, (r < 2)%nat -> w_err (rank_state [(0%nat, WNs 40000); (1%nat, WNs 40000)] r) = true.
Proof. intros [|[|r]] R; [reflexivity|reflexivity|lia]. Qed.
(** An error on one rank only: the ranks' collective calls at closing differ. *)
Theorem C48_one_rank_refuted :
  exists h f, run 4000 h empty_file = Some f /\ w_err (rank_state h 0) = false /\ w_err (rank_state h 1) = true /\ close 4000 (ranks h 2) f = None.
Proof.
  set (h := [(0%nat, WNs 1); (1%nat, WNs 1); (1%nat, WNs 32768); (0%nat, WTrace [] (Range 0 1) (Some (demo_mem 3)) None 0); (1%nat, WTrace [] (Range 1 1) (Some (demo_mem 4)) None 0)]).
  assert (H : obind (run 4000 h empty_file) (fun f => match close 4000 (ranks h 2) f with None => Some tt | _ => None end) = Some tt) by (vm_compute; reflexivity).
  destruct (run 4000 h empty_file) as [f|] eqn:E; [|discriminate]. exists h, f. split; [exact E|]. split; [reflexivity|]. split; [reflexivity|].
  cbn [obind] in H. destruct (close _ _ _); [discriminate|reflexivity].
Qed.
Print Assumptions C48_one_rank_refuted.

(** ---- C09: IBM files ---- *)
(** The IBM number 41 10 00 00 (1.0) in a file with format 1 is read as 0.5. *)
Definition ibm_file : file := mkFile (3600 + 244) (fun q => nth (Z.to_nat (q - 3840)) [65; 16; 0; 0] 0).
Theorem C09_ibm_read_refuted :
  exists m', readTraceT 4000 [] 1 1 (Range 0 1) (Some (fun _ => 0)) None 0 ibm_file = Some (Some m', None) /\
  disk_sample ibm_file 1 0 0 = 1091567616 /\                     (* 41 10 00 00 in the file *)
  from_IBM_to_float true 65 16 0 0 = Some 1065353216 /\          (* the library's own conversion: 1.0f *)
  sample m' 0 = 1056964608.                                      (* read as 0.5f *)
Proof.
  assert (H : obind (readTraceT 4000 [] 1 1 (Range 0 1) (Some (fun _ => 0)) None 0 ibm_file) (fun r => match r with (Some m, None) => Some (sample m 0) | _ => None end) = Some 1056964608) by (vm_compute; reflexivity).
  destruct (readTraceT 4000 [] 1 1 (Range 0 1) (Some (fun _ => 0)) None 0 ibm_file) as [[[m|] [q|]]|] eqn:E; try discriminate H.
  cbn [obind] in H. exists m. split; [reflexivity|]. split; [reflexivity|]. split; [reflexivity|congruence].
Qed.
Print Assumptions C09_ibm_read_refuted.
(** In general the value read depends on the three lowest bits of the stored number
    only (for patterns whose exponent bits, read as IEEE, are not zero). *)
Definition ibm_read (bits : Z) : option Z :=
  match le_bytes (double_low bits) with [b0; b1; b2; b3] => from_IBM_to_float true b0 b1 b2 b3 | _ => None end.
Theorem C09_three_bits_refuted :
  forall a b, a / 8388608 mod 256 <> 0 -> b / 8388608 mod 256 <> 0 -> a mod 8 = b mod 8 -> ibm_read a = ibm_read b.
Proof.
  intros a b A B E. unfold ibm_read. assert (X : double_low a = double_low b).
  { unfold double_low. cbv zeta. replace (a / 8388608 mod 256 =? 0) with false by lia. replace (b / 8388608 mod 256 =? 0) with false by lia. cbn [andb].
    change two32 with (8 * 2 ^ 29). rewrite !Z.mul_mod_distr_r by lia. f_equal.
    rewrite <- !Znumtheory.Zmod_div_mod; try lia; try (exists 1048576; reflexivity). }
  rewrite X. reflexivity.
Qed.
Print Assumptions C09_three_bits_refuted.
Example C09_nonvacuous : ibm_read 1091567616 = Some 1056964608 /\ 1091567616 / 8388608 mod 256 = 130.
Proof. split; reflexivity. Qed.
