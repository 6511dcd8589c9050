(** C102: what the copier does not do. *)
From Coq Require Import Reals Lra.
From Flocq Require Import Core IEEE754.BinarySingleNaN.
From Verif Require Import Base DecompModel DecompSpec DecompProofs NumEncModel NumEncSpec NumEncProofs CharEncModel CharEncProofs LayoutModel LayoutProofs DataIOModel DataIOProofs
  RuleModel RuleProofs DoubleModel ParamModel ParamProofs HeaderProofs ScalarProofs FileSpec FileModel FileProofs WriteSpec WriteProofs ParamProperties ReadProofs OpenProofs FileProperties TraceProperties.
From Verif Require Import CopySpec CopyProofs ExampleModel ExampleProofs CopyProperties.
Import ListNotations.
Open Scope Z_scope.

(** C102 refuted: a memory limit below one trace is a division by zero in every process. *)
Theorem C102_small_memory_refuted :
  forall maxSize sizes m0 rd f memmax fprm p r, 0 <= r_ns rd <= 32767 -> 0 <= memmax < Z.max 240 (4 * r_ns rd) ->
  creadwrite maxSize sizes m0 rd f memmax fprm p r = None.
Proof.
  intros maxSize sizes m0 rd f memmax fprm p r NS MM. unfold creadwrite. destruct (block_decomposition (r_nt rd) p r) as [dec|]; [|reflexivity]. cbn [obind].
  assert (E : rw_tcnt memmax (r_ns rd) = 0).
  { unfold rw_tcnt. rewrite getDFSz_exact by (unfold two64; lia). change getMDSz with 240. destruct (Z.ltb_spec 240 (4 * r_ns rd)); apply Z.div_small; lia. }
  rewrite E. reflexivity.
Qed.
Print Assumptions C102_small_memory_refuted.
(** C102 refuted: a file whose interval is zero is not copied: announcing the interval is
    an error in every process, although the file was opened without one. *)
Theorem C102_zero_interval_refuted :
  exists f rd, open_file 4000 [] f = Some rd /\ file_bytes f /\ r_ns rd = 2 /\ r_nt rd = 3 /\ int16_at (fbyte f) 3217 = 0 /\
  forall sizes m0 memmax fprm p r ops, creadwrite 4000 sizes m0 rd f memmax fprm p r = Some ops -> w_err (local (firstn 4 ops) w_init) = true.
Proof.
  destruct (source_open 0) as (rd & O & N & T & FM & IV & TX); [unfold is_byte; lia|]. exists (source_file 0), rd. split; [exact O|]. split; [apply source_bytes; unfold is_byte; lia|]. split; [exact N|]. split; [exact T|].
  split; [reflexivity|]. intros sizes m0 memmax fprm p r ops C. unfold creadwrite in C. destruct (block_decomposition (r_nt rd) p r) as [dec|]; [|discriminate]. cbn [obind] in C.
  destruct (rw_calls _ _ _ _) as [cs|]; [|discriminate]. cbn [obind] in C. destruct (omap _ cs) as [ws|]; [|discriminate]. cbn [obind] in C. apply (f_equal (fun o => match o with Some x => x | None => ops end)) in C. cbv beta iota in C. subst ops.
  cbn [app firstn local fold_left]. unfold wlocal at 1. rewrite IV. replace (disnormal (dmul incFactor (d_of_Z 0))) with false by (vm_compute; reflexivity). reflexivity.
Qed.
Print Assumptions C102_zero_interval_refuted.
Example C102_nonvacuous : exists rd ops, open_file 4000 [] (source_file 0) = Some rd /\ creadwrite 4000 (fun _ _ => []) (fun _ _ _ => 0) rd (source_file 0) 500 None 1 0 = Some ops.
Proof.
  destruct (source_open 0) as (rd & O & N & T & FM & IV & TX); [unfold is_byte; lia|]. exists rd.
  destruct (open_fits 4000 [] (source_file 0) rd) as (F & HT); try assumption; try lia; [apply source_bytes; unfold is_byte; lia|cbn [source_file fsize]; unfold two64; lia|].
  destruct (rank_calls 4000 (fun _ _ => []) (fun _ _ _ => 0) rd (source_file 0) 500 1 0) as (ws & E & _); try assumption; try (rewrite ?N; lia).
  - apply source_bytes; unfold is_byte; lia.
  - intros x y a. unfold is_byte. lia.
  - rewrite N. unfold two64; lia.
  - eauto.
Qed.
(** C102 refuted: with -p the source position written for trace 1 depends on the number
    of processes: it is computed from the start of the block, not from the trace. *)
Definition source_x_is (x : Z) (ops : option (list wop)) (b : Z) : bool :=
  match ops with
  | None => false
  | Some l => existsb (fun o => match o with
      | WTrace _ (Range off n) _ (Some p) _ => (off <=? b) && (b <? off + n) && match getPrm (b - off) 20 p with Some (VF d) => deqb d (d_of_Z x) | _ => false end
      | _ => false end) l
  end.
Definition small_reader : reader := mkR 2 3 (dmul incFactor (d_of_Z 250)) 5 [67; 49].
Theorem C102_process_count_refuted :
  source_x_is 1600 (creadwrite 4000 (fun _ _ => []) (fun _ _ _ => 0) small_reader (source_file 250) 500000 (Some source_1600_2400) 1 0) 2 = true /\
  source_x_is 1602 (creadwrite 4000 (fun _ _ => []) (fun _ _ _ => 0) small_reader (source_file 250) 500000 (Some source_1600_2400) 2 1) 2 = true /\
  source_x_is 1602 (creadwrite 4000 (fun _ _ => []) (fun _ _ _ => 0) small_reader (source_file 250) 240 (Some source_1600_2400) 1 0) 2 = true /\
  deqb (d_of_Z 1600) (d_of_Z 1602) = false.
Proof. repeat split; vm_compute; reflexivity. Qed.
Print Assumptions C102_process_count_refuted.
(** C102 refuted: a build with assertions stops in the empty calls a process makes to
    keep up with the others. *)
Theorem C102_debug_build_refuted :
  forall ns memmax p, 0 <= ns <= 32767 -> Z.max 240 (4 * ns) <= memmax < two64 -> 1 < p -> exists r b cs,
  0 <= r < p /\ rw_calls (global_offset (rw_piece 1 p r)) (local_size (rw_piece 1 p r)) (rw_biggest 1 p) (rw_tcnt memmax ns) = Some cs /\ In b cs /\ debug_asserts ns b = false.
Proof.
  intros ns memmax p NS MM P. assert (N64 : in_u64 1) by (unfold in_u64, two64; lia).
  assert (TC : rw_tcnt memmax ns = memmax / Z.max 240 (4 * ns)).
  { unfold rw_tcnt. rewrite getDFSz_exact by (unfold two64 in *; lia). change getMDSz with 240. destruct (Z.ltb_spec 240 (4 * ns)); f_equal; lia. }
  assert (T0 : 0 < rw_tcnt memmax ns). { rewrite TC. apply Z.div_str_pos. lia. }
  assert (T1 : rw_tcnt memmax ns * 240 <= memmax).
  { rewrite TC. etransitivity; [|apply (Z.mul_div_le memmax (Z.max 240 (4 * ns))); lia]. rewrite Z.mul_comm. apply Z.mul_le_mono_nonneg_r; [apply Z.div_pos; lia|lia]. }
  assert (B1 : block_decomposition 1 p 1 = Some (mkPiece 1 0)) by (rewrite block_decomposition_exact by (first [exact N64|lia]); rewrite Z.div_small, Z.mod_small by lia; reflexivity).
  assert (B0 : block_decomposition 1 p 0 = Some (mkPiece 0 1)) by (rewrite block_decomposition_exact by (first [exact N64|lia]); rewrite Z.div_small, Z.mod_small by lia; reflexivity).
  destruct (biggest_spec 1 p N64 ltac:(lia)) as (BG & BN). specialize (BG 0 ltac:(lia)). unfold rw_piece in BG. rewrite B0 in BG. cbn [local_size] in BG. assert (BE : rw_biggest 1 p = 1) by lia.
  assert (R1 : rw_piece 1 p 1 = mkPiece 1 0) by (unfold rw_piece; rewrite B1; reflexivity).
  destruct (calls_spec 1 0 1 (rw_tcnt memmax ns)) as (cs & EC & LC & CR & _); try (unfold two64 in *; lia).
  exists 1. destruct cs as [|b cs]; [rewrite nblk_1 in LC by lia; cbn in LC; lia|]. exists b, (b :: cs). split; [lia|]. rewrite R1, BE. cbn [global_offset local_size]. split; [exact EC|]. split; [left; reflexivity|].
  destruct (CR b (or_introl eq_refl)) as (Q0 & Q & Q2). unfold debug_asserts. replace (snd b) with 0 by lia. reflexivity.
Qed.
Print Assumptions C102_debug_build_refuted.
