(** C113: copying a file with examples/example2.c. *)
From Coq Require Import Reals Lra.
From Flocq Require Import Core IEEE754.BinarySingleNaN.
From Verif Require Import Base DecompModel DecompSpec DecompProofs NumEncModel NumEncSpec NumEncProofs CharEncModel CharEncProofs LayoutModel LayoutProofs DataIOModel DataIOProofs
  RuleModel RuleProofs DoubleModel ParamModel ParamProofs HeaderProofs ScalarProofs FileSpec FileModel FileProofs WriteSpec WriteProofs ParamProperties ReadProofs OpenProofs FileProperties TraceProperties.
From Verif Require Import CopySpec CopyProofs ExampleModel ExampleProofs CopyProperties PieceProofs CreateCProofs ExTwoModel.
Import ListNotations.
Open Scope Z_scope.

(** An input as for C101 (there is no memory limit); the I/O block holds two traces of the
    input and of the output. *)
Record copyable2 (maxSize : Z) (sizes0 : list Z) (f : file) (rd : reader) : Prop := mkCopyable2 {
  c2_open : open_file maxSize sizes0 f = Some rd;
  c2_bytes : file_bytes f;
  c2_size : 3600 <= fsize f < two64;
  c2_max : 3600 <= maxSize /\ 2 * (240 + 4 * r_ns rd) <= maxSize /\ 2 * (240 + 4 * r_nt rd) <= maxSize;
  c2_ns : r_ns rd <= 32767;
  c2_nt : 0 < r_nt rd;
  c2_format : int16_at (fbyte f) 3225 <> 1;
  c2_interval : 1 <= int16_at (fbyte f) 3217 }.

(** ---- what a rank reads ---- *)
Lemma two_read maxSize sizes0 f rd (C : copyable2 maxSize sizes0 f rd) sizes m0 p r : (forall x y, mem_bytes (m0 x y)) -> 0 <= r < p ->
  exists off lnt m prm, block_decomposition (r_nt rd) p r = Some (mkPiece off lnt) /\ 0 <= off /\ 0 <= lnt /\ off + lnt <= r_nt rd /\
  readTrace maxSize (sizes off lnt) rd off lnt (Some (m0 off lnt)) (Some (newParam default_rule lnt)) 0 f = Some (Some m, Some prm) /\ mem_bytes m /\
  (forall ns', 0 <= ns' -> exists buf, insertParam lnt prm (fun _ => 0) (4 * ns') 0 = Some buf) /\
  call_copies (fun i => (f, i)) (r_ns rd) default_rule (WTrace (sizes off lnt) (Range off lnt) (Some m) (Some prm) 0).
Proof.
  intros MB R. destruct C as [CO CB CS (CM & CM2 & _) CN CT CF CI].
  destruct (open_inv _ _ _ _ CM CB CS CO) as (E1 & E2 & E3 & E4 & E5 & _). destruct (open_fits _ _ _ _ CM CB CS CO CN) as (F & HT). pose proof F as (N0 & NT0 & S64 & W64).
  assert (N64 : in_u64 (r_nt rd)). { assert (r_nt rd * 240 <= r_nt rd * (240 + 4 * r_ns rd)) by (apply Z.mul_le_mono_nonneg_l; lia). unfold in_u64; lia. }
  destruct (piece_bounds _ p r N64 ltac:(lia) R) as ((off & lnt) & E & B1 & B2 & B3). cbn [global_offset local_size] in *.
  destruct (block_spec maxSize sizes m0 rd f (off, lnt) CM2 F HT CB ltac:(congruence) MB ltac:(cbn; lia) ltac:(cbn; lia) ltac:(cbn; lia)) as (m & prm & Q & GW & CP). cbn [fst snd] in *.
  exists off, lnt, m, prm. split; [exact E|]. repeat (split; [lia|]).
  cbn [rw_block mod_params] in Q. destruct (readTrace maxSize (sizes off lnt) rd off lnt (Some (m0 off lnt)) (Some (newParam default_rule lnt)) 0 f) as [(trc', prm')|]; [|discriminate Q]. cbn [obind] in Q.
  destruct prm' as [q|]; [|discriminate Q]. cbn [obind] in Q.
  apply (f_equal (fun o => match o with Some (WTrace _ _ t (Some q) _) => Some (t, q) | _ => None end)) in Q. cbv beta iota in Q. injection Q as -> ->.
  split; [reflexivity|]. destruct GW as (_ & _ & GB & _ & _). split; [apply GB; reflexivity|]. split; [|exact CP].
  intros ns' N'. destruct CP as (P1 & _ & _ & P4 & CP). cbn [tcount tpos] in *. apply holds_insert; [exact P1|lia|lia|]. intros i I. exists (disk_header f (r_ns rd) (off + i)). apply CP. exact I.
Qed.
Lemma two_head rd : 0 <= r_nt rd <= 32767 -> disnormal (r_inc rd) = true ->
  let w := local (example2_head rd) w_init in
  w_err w = false /\ w_nsSet w = true /\ w_ns w = r_nt rd /\ w_inc w = r_inc rd /\ w_text w = (match c_string (r_text rd) with [] => [] | s => resize text_size s end).
Proof.
  intros NS DN. unfold example2_head. cbn [local fold_left wlocal]. replace (32767 <? r_nt rd) with false by lia. cbn [wlocal w_ns w_nt w_text w_inc w_nsSet w_writeHO w_resize w_stalent w_err w_init].
  destruct (c_string (r_text rd)) as [|c s]; cbn [text_eqb w_init w_ns w_nt w_text w_inc w_nsSet w_writeHO w_resize w_stalent w_err]; rewrite DN; cbn [w_ns w_nt w_text w_inc w_nsSet w_writeHO w_resize w_stalent w_err]; auto 8.
Qed.

(** The first trace of the process that has trace i. *)
Definition own_start (nt p i : Z) : Z :=
  match find (fun r => (global_offset (rw_piece nt p r) <=? i) && (i <? global_offset (rw_piece nt p r) + local_size (rw_piece nt p r))) (zr p) with
  | Some r => global_offset (rw_piece nt p r) | None => 0 end.
Lemma own_start_spec nt p r i off lnt : in_u64 nt -> 0 < p -> 0 <= r < p -> block_decomposition nt p r = Some (mkPiece off lnt) -> off <= i < off + lnt -> own_start nt p i = off.
Proof.
  intros N P R E I. unfold own_start. destruct (find _ _) as [r'|] eqn:FD.
  - apply find_some in FD. destruct FD as (R' & A). apply in_zr in R'. destruct (rw_piece_eq nt p r' N R') as ((o' & l') & E' & EQ & _ & _ & B3). rewrite EQ in *. cbn [global_offset local_size] in *.
    destruct (block_decomposition_shares nt p N P) as (_ & SH & _). destruct (piece_bounds nt p r N P R) as (d & ED & D1 & D2 & D3). rewrite E in ED. injection ED as <-. cbn [global_offset local_size] in *.
    destruct (SH i ltac:(lia)) as (r0 & _ & U).
    assert (r = r') as <-. { transitivity r0; [symmetry|]; apply U; (split; [assumption|]); [exists (mkPiece off lnt)|exists (mkPiece o' l')]; (split; [assumption|]); unfold in_piece; cbn [global_offset local_size]; lia. }
    rewrite E in E'. injection E' as <- _. reflexivity.
  - exfalso. pose proof (find_none _ _ FD r ltac:(apply in_zr; exact R)) as Q. cbv beta in Q. unfold rw_piece in Q. rewrite E in Q. cbn [global_offset local_size] in Q. lia.
Qed.

(** C113: what is written when the input has no more traces than samples.  The output has as
    many samples as the input has traces and the reverse; the headers are copied; the
    samples of every process follow each other in pieces of the new length, so what a trace
    holds depends on how many processes there are.  Missing: the samples in their places,
    inputs with more traces than samples. *)
Theorem C113_written_partial :
  forall maxSize sizes0 f rd, copyable2 maxSize sizes0 f rd -> r_nt rd <= r_ns rd ->
  forall p h f0 maxSize' sizes', (0 < p)%nat -> file_bytes f0 -> 3600 <= maxSize' ->
  forall (sizes : nat -> Z -> Z -> list Z) (m0 : nat -> Z -> Z -> mem), (forall r x y, mem_bytes (m0 r x y)) ->
  (forall x, In x h -> (fst x < p)%nat) ->
  (forall r, (r < p)%nat -> example2 maxSize (sizes r) (m0 r) rd f (Z.of_nat p) (Z.of_nat r) = Some (rank_ops h r)) ->
  exists f' rd', write_file maxSize p h f0 = Some f' /\ open_file maxSize' sizes' f' = Some rd' /\
  r_ns rd' = r_nt rd /\ r_nt rd' = r_ns rd /\ r_inc rd' = r_inc rd /\
  (forall i l, 0 <= i < r_nt rd -> In l copied_ints -> int32_at (disk_header f' (r_nt rd) i) l = int32_at (disk_header f (r_ns rd) i) l) /\
  (forall i l, 0 <= i < r_nt rd -> In l copied_coordinates -> plain_scale (int16_at (disk_header f (r_ns rd) i) 71) ->
     coordinate (disk_header f' (r_nt rd) i) l 71 = coordinate (disk_header f (r_ns rd) i) l 71) /\
  (forall r off lnt, (r < p)%nat -> block_decomposition (r_nt rd) (Z.of_nat p) (Z.of_nat r) = Some (mkPiece off lnt) ->
     forall j k, 0 <= j < lnt -> 0 <= k < r_nt rd -> let x := j * r_nt rd + k in
     disk_sample f' (r_nt rd) (off + j) k = disk_sample f (r_ns rd) (off + x / r_ns rd) (x mod r_ns rd)).
Proof.
  intros maxSize sizes0 f rd C SQ p h f0 maxSize' sizes' P FB0 M' sizes m0 MB RK RUN.
  pose proof C as [CO CB CS (CM & CM2 & CM3) CN CT CF CI].
  destruct (open_inv _ _ _ _ CM CB CS CO) as (E1 & E2 & E3 & E4 & E5 & _). destruct (open_fits _ _ _ _ CM CB CS CO CN) as (F & HT). pose proof F as (N0 & NT0 & S64 & W64).
  set (ns := r_ns rd) in *. set (nt := r_nt rd) in *. set (us := int16_at (fbyte f) 3217) in *.
  assert (US : us <= 32767). { unfold us. rewrite int16_rd by apply CB. pose proof (rd16_range (fbyte f) (3217 - 1)) as Q. unfold in_s16 in Q. lia. }
  assert (N64 : in_u64 nt) by (unfold in_u64, two64; lia).
  assert (F2 : fits ns nt). { assert (ns * (240 + 4 * nt) <= 32767 * 131308) by (apply Z.mul_le_mono_nonneg; lia). unfold fits. repeat split; try lia; unfold two64; lia. }
  destruct (two_head rd ltac:(fold nt; lia) ltac:(rewrite E2; apply inc_normal; lia)) as (L1 & L2 & L3 & L4 & L5).
  set (wr := fun r => skipn 4 (rank_ops h r)).
  assert (WS : forall r, (r < p)%nat -> exists off lnt m prm, block_decomposition nt (Z.of_nat p) (Z.of_nat r) = Some (mkPiece off lnt) /\ 0 <= off /\ 0 <= lnt /\ off + lnt <= nt /\
     rank_ops h r = example2_head rd ++ wr r /\ wr r = [WTrace (sizes r off lnt) (Range off lnt) (Some m) (Some prm) 0] /\ mem_bytes m /\
     (forall ns', 0 <= ns' -> exists buf, insertParam lnt prm (fun _ => 0) (4 * ns') 0 = Some buf) /\
     call_copies (fun i => (f, i)) ns default_rule (WTrace (sizes r off lnt) (Range off lnt) (Some m) (Some prm) 0)).
  { intros r R. destruct (two_read maxSize sizes0 f rd C (sizes r) (m0 r) (Z.of_nat p) (Z.of_nat r) (MB r) ltac:(lia)) as (off & lnt & m & prm & Q1 & Q2 & Q3 & Q4 & Q5 & Q6 & Q7 & Q8).
    pose proof (RUN r R) as RR. unfold example2 in RR. rewrite Q1 in RR. cbn [obind global_offset local_size] in RR. rewrite Q5 in RR. cbn [obind] in RR.
    destruct (_ <=? _) in RR; [|discriminate RR]. assert (RO : rank_ops h r = example2_head rd ++ [WTrace (sizes r off lnt) (Range off lnt) (Some m) (Some prm) 0]) by congruence.
    exists off, lnt, m, prm. unfold wr. rewrite RO. repeat (split; [assumption || reflexivity|]). exact Q8. }
  assert (IV : fin (r_inc rd) /\ (Rabs (val (r_inc rd) - IZR us / 1000000) <= / 4000000)%R).
  { rewrite E2. destruct (inc_value us ltac:(lia)) as (FI & BI). split; [exact FI|]. eapply Rle_trans; [exact BI|].
    assert (K1 : (IZR us <= 32767)%R) by (apply IZR_le; lia). assert (K0 : (0 <= IZR us)%R) by (apply (IZR_le 0); lia).
    assert (S : (bpow radix2 (-51) <= bpow radix2 (-20))%R) by (apply bpow_le; lia). assert (U : (bpow radix2 (-20) = / 1048576)%R) by (cbn; lra). pose proof (bpow_gt_0 radix2 (-51)).
    eapply Rle_trans; [apply Rmult_le_compat_l; [lra|exact S]|]. rewrite U. lra. }
  destruct IV as (FI & BI).
  set (smp := fun i k => let s := own_start nt (Z.of_nat p) i in let x := (i - s) * nt + k in disk_sample f ns (s + x / ns) (x mod ns)).
  set (hdr := fun i => disk_header f ns i).
  assert (GW : forall r o, (r < p)%nat -> In o (wr r) -> good_write ns nt o /\ call_pieces smp hdr nt default_rule o).
  { intros r o R I. destruct (WS r R) as (off & lnt & m & prm & E & O & N & L & _ & EW & MM & IP & (P1 & P2 & P3 & P4 & CP)). cbn [tcount tpos] in *. rewrite EW in I. destruct I as [<-|[]]. split.
    - cbn [good_write in_file write_fine tcount]. split; [lia|]. split; [lia|]. split; [intros q Q; injection Q as <-; exact MM|]. split; [left; discriminate|]. intros q Q. injection Q as <-. apply IP. exact NT0.
    - cbn [call_pieces tcount tpos]. split.
      + intros q Q j k J K. injection Q as <-. unfold smp. cbv zeta. rewrite (own_start_spec nt (Z.of_nat p) (Z.of_nat r) (off + j) off lnt N64 ltac:(lia) ltac:(lia) E ltac:(lia)).
        replace (off + j - off) with j by lia. set (x := j * nt + k).
        assert (X0 : 0 <= j * nt) by (apply Z.mul_nonneg_nonneg; lia). assert (X1 : (j + 1) * nt <= lnt * nt) by (apply Z.mul_le_mono_nonneg_r; lia). assert (X2 : lnt * nt <= lnt * ns) by (apply Z.mul_le_mono_nonneg_l; lia).
        assert (NP : 0 < ns) by lia. pose proof (Z.div_mod x ns ltac:(lia)) as DM. pose proof (Z.mod_pos_bound x ns NP) as MP.
        assert (D0 : 0 <= x / ns) by (apply Z.div_pos; unfold x; lia). assert (D1 : x / ns < lnt) by (apply Z.div_lt_upper_bound; unfold x; lia).
        destruct (CP (x / ns) ltac:(lia)) as (CS' & _). rewrite <- (CS' (x mod ns) MP). f_equal. rewrite DM at 1. lia.
      + intros q Q. injection Q as <-. split; [exact P1|]. split; [exact P2|]. split; [lia|]. split; [lia|]. intros j J. apply (CP j J). }
  destruct (program_life maxSize p h f0 ns nt (example2_head rd) wr P CM CM3 F2 FB0 RK) as ((f' & W) & TI); try assumption.
  { intros r R. destruct (WS r R) as (off & lnt & m & prm & _ & _ & _ & _ & E & _). exact E. }
  { intros o [<-|[<-|[<-|[<-|[]]]]] Q; exact Q. }
  { intros n [Q|[Q|[Q|[Q|[]]]]]; try discriminate. injection Q as <-. fold ns. lia. }
  { unfold header. rewrite L4, (inc_round (r_inc rd) us FI ltac:(lia) BI). cbn [obind]. eauto. }
  { intros r o R I. apply (GW r o R I). }
  { intros r R. destruct (WS r R) as (off & lnt & m & prm & _ & _ & _ & _ & _ & E & _). rewrite E. discriminate. }
  destruct (C40_header_round_trip_partial _ _ _ _ _ _ _ maxSize' sizes' W M') as (rd' & O & Q1 & Q2 & Q3 & Q4 & Q5).
  destruct (life _ _ _ _ _ _ _ W) as (f1 & hd & k & _ & _ & _ & _ & AL & _ & _ & SZ & _).
  assert (WW : forall r o, (r < p)%nat -> In o (wr r) -> writes o) by (intros r o R I; destruct (GW r o R I) as (Q & _); destruct o; try contradiction; exact Logic.I).
  assert (AN : asked_by_all h p = ns).
  { apply Z.le_antisymm; [exact AL|]. unfold asked_by_all. etransitivity; [|apply (zmax_in _ (asked (rank_ops h 0)))].
    - destruct (WS 0%nat P) as (off & lnt & m & prm & _ & _ & _ & _ & E & _). unfold asked, announced. rewrite E, fold_left_app. cbn [example2_head fold_left]. rewrite announced_writes; [fold ns; lia|]. intros o I. apply (WW 0%nat o P I).
    - apply in_map_iff. exists 0%nat. split; [reflexivity|]. apply in_seq. lia. }
  destruct (TI 0%nat P) as (_ & TN). rewrite L4 in TN.
  exists f', rd'. split; [apply W|]. split; [exact O|]. split; [exact Q1|]. split; [congruence|]. split.
  { assert (X : r_inc rd' = w_inc (rank_state h 0)). { destruct (Q5 us ltac:(lia)) as (_ & _ & Q6); [rewrite TN; exact FI|rewrite TN; exact BI|]. apply Q6. rewrite TN. exact E2. }
    rewrite X. exact TN. }
  assert (HC : forall x, In x h -> call_pieces smp hdr nt default_rule (snd x)).
  { intros (r1, o1) X. pose proof (RK _ X) as R1. cbn [fst snd] in *. pose proof (in_rank_ops _ _ _ X) as Y. destruct (WS r1 R1) as (off1 & lnt1 & m1 & prm1 & _ & _ & _ & _ & E1' & _). rewrite E1' in Y. apply in_app_or in Y. destruct Y as [Y|Y].
    - destruct Y as [<-|[<-|[<-|[<-|[]]]]]; exact Logic.I.
    - apply (GW r1 o1 R1 Y). }
  assert (IH : forall r off lnt m prm, (r < p)%nat -> rank_ops h r = example2_head rd ++ wr r -> wr r = [WTrace (sizes r off lnt) (Range off lnt) (Some m) (Some prm) 0] -> In (r, WTrace (sizes r off lnt) (Range off lnt) (Some m) (Some prm) 0) h).
  { intros r off lnt m prm R A1 A2. assert (IO : In (WTrace (sizes r off lnt) (Range off lnt) (Some m) (Some prm) 0) (rank_ops h r)) by (rewrite A1, A2; apply in_or_app; right; left; reflexivity). unfold rank_ops in IO. apply in_map_iff in IO.
    destruct IO as ((r1 & o1) & EO1 & FI1). apply filter_In in FI1. destruct FI1 as (A & B). cbn [fst snd] in *. apply Nat.eqb_eq in B. subst. exact A. }
  assert (HP : forall i, 0 <= i < nt -> (forall m e, lookup m (translate default_rule) = Some e -> e_type e = MLong -> int32_at (disk_header f' nt i) (e_loc e) = int32_at (hdr i) (e_loc e)) /\
    (forall m e, lookup m (translate default_rule) = Some e -> e_type e = MFloat -> plain_scale (int16_at (hdr i) (e_scal e)) -> coordinate (disk_header f' nt i) (e_loc e) (e_scal e) = coordinate (hdr i) (e_loc e) (e_scal e))).
  { intros i I. destruct (block_decomposition_shares nt (Z.of_nat p) N64 ltac:(lia)) as (_ & SH & _). destruct (SH i I) as (r0 & (R0 & pc & EP & IP) & _). unfold in_piece in IP.
    assert (RP : (Z.to_nat r0 < p)%nat) by lia. destruct (WS (Z.to_nat r0) RP) as (off & lnt & m & prm & E & _ & _ & _ & A1 & A2 & _). rewrite Z2Nat.id in E by lia. rewrite EP in E. injection E as ->. cbn [global_offset local_size] in IP.
    destruct (history_pieces_headers maxSize p h f0 f' ns nt smp hdr default_rule W default_usable ltac:(vm_compute; reflexivity) HC ltac:(intros b q; apply CB) i) as (HL & _ & HF).
    { exists (Z.to_nat r0), (sizes (Z.to_nat r0) off lnt), (Range off lnt), (Some m), prm, 0, (i - off). split; [apply IH; assumption|]. cbn [tcount tpos]. lia. }
    split; [exact HL|]. intros mm e LK T PS. apply (HF mm e LK T PS). }
  split; [|split].
  - intros i l I L. destruct (default_int l L) as (mm & e & LK & T & <-). apply (proj1 (HP i I) mm e LK T).
  - intros i l I L PS. destruct (default_coordinate l L) as (mm & e & LK & T & <- & SC). rewrite <- SC. apply (proj2 (HP i I) mm e LK T). rewrite SC. exact PS.
  - intros r off lnt R E j kk J K. cbv zeta. destruct (WS r R) as (off' & lnt' & m & prm & E' & O' & N' & L' & A1 & A2 & _). rewrite E in E'. injection E' as <- <-.
    rewrite (history_pieces_samples maxSize p h f0 f' ns nt smp hdr default_rule W HC (off + j)); [|exists r, (sizes r off lnt), (Range off lnt), m, (Some prm), 0, j; split; [apply IH; assumption|]; cbn [tcount tpos]; lia|exact K].
    unfold smp. cbv zeta. rewrite (own_start_spec nt (Z.of_nat p) (Z.of_nat r) (off + j) off lnt N64 ltac:(lia) ltac:(lia) E ltac:(lia)). replace (off + j - off) with j by lia. reflexivity.
Qed.
Print Assumptions C113_written_partial.

(** C113: a file with as many traces as samples is copied. *)
Theorem C113_square_copied :
  forall maxSize sizes0 f rd, copyable2 maxSize sizes0 f rd -> r_nt rd = r_ns rd ->
  forall p h f0 maxSize' sizes', (0 < p)%nat -> file_bytes f0 -> 3600 <= maxSize' ->
  forall (sizes : nat -> Z -> Z -> list Z) (m0 : nat -> Z -> Z -> mem), (forall r x y, mem_bytes (m0 r x y)) ->
  (forall x, In x h -> (fst x < p)%nat) ->
  (forall r, (r < p)%nat -> example2 maxSize (sizes r) (m0 r) rd f (Z.of_nat p) (Z.of_nat r) = Some (rank_ops h r)) ->
  exists f' rd', write_file maxSize p h f0 = Some f' /\ open_file maxSize' sizes' f' = Some rd' /\
  r_ns rd' = r_ns rd /\ r_nt rd' = r_nt rd /\ r_inc rd' = r_inc rd /\ (forall i, 0 <= i < r_nt rd -> trace_copied f i f' i (r_ns rd)).
Proof.
  intros maxSize sizes0 f rd C SQ p h f0 maxSize' sizes' P FB0 M' sizes m0 MB RK RUN.
  destruct (C113_written_partial maxSize sizes0 f rd C ltac:(lia) p h f0 maxSize' sizes' P FB0 M' sizes m0 MB RK RUN) as (f' & rd' & W & O & A1 & A2 & A3 & A4 & A5 & A6).
  pose proof C as [_ _ _ _ CN CT _ _]. rewrite SQ in *.
  exists f', rd'. split; [exact W|]. split; [exact O|]. split; [exact A1|]. split; [exact A2|]. split; [exact A3|]. intros i I.
  constructor; [|intros l L; apply A4; assumption|intros PS l L; apply A5; assumption].
  intros k K. assert (N64 : in_u64 (r_ns rd)) by (unfold in_u64, two64; lia).
  destruct (block_decomposition_shares (r_ns rd) (Z.of_nat p) N64 ltac:(lia)) as (_ & SH & _). destruct (SH i I) as (r0 & (R0 & (off & lnt) & EP & IP) & _). unfold in_piece in IP. cbn [global_offset local_size] in IP.
  pose proof (A6 (Z.to_nat r0) off lnt ltac:(lia) ltac:(rewrite Z2Nat.id by lia; exact EP) (i - off) k ltac:(lia) K) as Q. cbv zeta in Q.
  rewrite Z.add_comm in Q. replace (i - off + off) with i in Q by lia. rewrite Q. rewrite (Z.add_comm ((i - off) * r_ns rd) k), Z.div_add, Z.mod_add, Z.div_small, Z.mod_small by lia. f_equal. lia.
Qed.
Print Assumptions C113_square_copied.

(** C113 refuted: the copy of a file with fewer traces than samples has another number of
    samples and of traces. *)
Theorem C113_transposed_refuted :
  forall maxSize sizes0 f rd, copyable2 maxSize sizes0 f rd -> r_nt rd < r_ns rd ->
  forall p h f0 maxSize' sizes', (0 < p)%nat -> file_bytes f0 -> 3600 <= maxSize' ->
  forall (sizes : nat -> Z -> Z -> list Z) (m0 : nat -> Z -> Z -> mem), (forall r x y, mem_bytes (m0 r x y)) ->
  (forall x, In x h -> (fst x < p)%nat) ->
  (forall r, (r < p)%nat -> example2 maxSize (sizes r) (m0 r) rd f (Z.of_nat p) (Z.of_nat r) = Some (rank_ops h r)) ->
  exists f' rd', write_file maxSize p h f0 = Some f' /\ open_file maxSize' sizes' f' = Some rd' /\ r_ns rd' <> r_ns rd /\ r_nt rd' <> r_nt rd.
Proof.
  intros maxSize sizes0 f rd C SQ p h f0 maxSize' sizes' P FB0 M' sizes m0 MB RK RUN.
  destruct (C113_written_partial maxSize sizes0 f rd C ltac:(lia) p h f0 maxSize' sizes' P FB0 M' sizes m0 MB RK RUN) as (f' & rd' & W & O & A1 & A2 & _).
  exists f', rd'. split; [exact W|]. split; [exact O|]. lia.
Qed.
Print Assumptions C113_transposed_refuted.

Lemma first_rank nt p : in_u64 nt -> 0 < p -> 0 < nt -> exists lnt, block_decomposition nt p 0 = Some (mkPiece 0 lnt) /\ 0 < lnt.
Proof.
  intros N P NT. rewrite block_decomposition_exact by (assumption || lia). unfold off_of, sz_of. eexists. split; [f_equal; f_equal; lia|].
  pose proof (Z.div_mod nt p ltac:(lia)) as DM. pose proof (Z.div_pos nt p ltac:(lia) P). pose proof (Z.mod_pos_bound nt p P). set (q := nt / p) in *. set (s := nt mod p) in *.
  destruct (Z.eq_dec q 0) as [E|E]; [rewrite E in *; assert (s = nt) by lia|]; repeat (match goal with |- context [if ?b then _ else _] => let X := fresh in destruct b eqn:X end); lia.
Qed.
(** C113 refuted: with more traces than samples, rank 0 hands over an array that is too
    short, whatever the number of processes. *)
Theorem C113_overrun_refuted :
  forall maxSize sizes0 f rd, copyable2 maxSize sizes0 f rd -> r_ns rd < r_nt rd <= 32767 ->
  forall p sizes m0, 0 < p -> (forall x y, mem_bytes (m0 x y)) -> example2 maxSize sizes m0 rd f p 0 = None.
Proof.
  intros maxSize sizes0 f rd C GT p sizes m0 P MB. pose proof C as [CO CB CS (CM & CM2 & CM3) CN CT CF CI].
  destruct (open_inv _ _ _ _ CM CB CS CO) as (E1 & E2 & _).
  assert (US : int16_at (fbyte f) 3217 <= 32767). { rewrite int16_rd by apply CB. pose proof (rd16_range (fbyte f) (3217 - 1)) as Q. unfold in_s16 in Q. lia. }
  destruct (two_head rd ltac:(lia) ltac:(rewrite E2; apply inc_normal; lia)) as (_ & _ & L3 & _).
  destruct (first_rank (r_nt rd) p ltac:(unfold in_u64, two64; lia) P ltac:(lia)) as (lnt & E & LN).
  destruct (two_read maxSize sizes0 f rd C sizes m0 p 0 MB ltac:(lia)) as (off & lnt' & m & prm & Q1 & _ & _ & _ & Q5 & _). rewrite E in Q1. injection Q1 as <- <-.
  unfold example2. rewrite E. cbn [obind global_offset local_size]. rewrite Q5. cbn [obind]. change (fold_left (fun w o => wlocal o w) (example2_head rd) w_init) with (local (example2_head rd) w_init). rewrite L3.
  assert (L : lnt * r_ns rd < lnt * r_nt rd) by (apply Z.mul_lt_mono_pos_l; lia). replace (lnt * r_nt rd <=? lnt * r_ns rd) with false by lia. reflexivity.
Qed.
Print Assumptions C113_overrun_refuted.

(** C113 refuted: with more than 32767 traces the number of samples is refused in every
    process, and closing writes no header. *)
Theorem C113_many_traces_refuted :
  forall maxSize rd f, 32767 < r_nt rd ->
  forall p h f0 f' (sizes : nat -> Z -> Z -> list Z) (m0 : nat -> Z -> Z -> mem), (0 < p)%nat ->
  (forall r, (r < p)%nat -> example2 maxSize (sizes r) (m0 r) rd f (Z.of_nat p) (Z.of_nat r) = Some (rank_ops h r)) ->
  (forall r, (r < p)%nat -> w_err (rank_state h r) = true) /\ (run maxSize h f0 = Some f' -> write_file maxSize p h f0 = Some f').
Proof.
  intros maxSize rd f GT p h f0 f' sizes m0 P RUN.
  assert (ER : forall r, (r < p)%nat -> w_err (rank_state h r) = true).
  { intros r R. pose proof (RUN r R) as RR. unfold example2 in RR. destruct (block_decomposition _ _ _) as [d|]; [|discriminate RR]. cbn [obind] in RR.
    destruct (readTrace _ _ _ _ _ _ _ _ _) as [(t, q)|]; [|discriminate RR]. cbn [obind] in RR. destruct q as [q|]; [|discriminate RR]. cbn [obind] in RR. destruct (_ <=? _) in RR; [|discriminate RR].
    assert (RO : rank_ops h r = example2_head rd ++ [WTrace (sizes r (global_offset d) (local_size d)) (Range (global_offset d) (local_size d)) t (Some q) 0]) by congruence.
    unfold rank_state. rewrite RO. change (w_err (local (example2_head rd ++ [WTrace (sizes r (global_offset d) (local_size d)) (Range (global_offset d) (local_size d)) t (Some q) 0]) w_init) = true). rewrite local_app. apply err_stays. unfold example2_head.
    change (local (WNs (r_nt rd) :: ?l) w_init) with (local l (wlocal (WNs (r_nt rd)) w_init)). apply err_stays. cbn [wlocal]. replace (32767 <? r_nt rd) with true by lia. reflexivity. }
  split; [exact ER|]. intros R. unfold write_file. rewrite R. cbn [obind]. apply close_error.
  - destruct p; [lia|discriminate].
  - intros w I. apply in_map_iff in I. destruct I as (r & <- & I). apply in_seq in I. apply ER. lia.
Qed.
Print Assumptions C113_many_traces_refuted.

(** Two traces of two samples (copied), and of three (not). *)
Definition square_byte (ns q : Z) : Z := if q =? 3221 then ns else source_byte 250 q.
Definition square_file (ns : Z) : file := mkFile (3600 + 2 * (240 + 4 * ns)) (square_byte ns).
Example C113_nonvacuous : forall ns, 1 <= ns <= 3 -> exists rd, copyable2 4000 [] (square_file ns) rd /\ r_nt rd = 2 /\ r_ns rd = ns /\
  (2 <= ns -> forall r, 0 <= r < 2 -> exists ops, example2 4000 (fun _ _ => []) (fun _ _ _ => 0) rd (square_file ns) 2 r = Some ops /\ length ops = 5%nat).
Proof.
  intros ns NS. assert (FB : file_bytes (square_file ns)).
  { intros q. cbn [square_file fbyte]. unfold square_byte. destruct (q =? 3221); [unfold is_byte; lia|]. apply (source_bytes 250). unfold is_byte; lia. }
  assert (SZ : 3600 <= fsize (square_file ns) < two64) by (cbn [square_file fsize]; unfold two64; lia).
  assert (NQ : int16_at (fbyte (square_file ns)) 3221 = ns).
  { assert (E : int16_at (fbyte (square_file ns)) 3221 = if 256 * 0 + ns <? 32768 then 256 * 0 + ns else 256 * 0 + ns - 65536) by reflexivity. rewrite E. destruct (Z.ltb_spec (256 * 0 + ns) 32768); lia. }
  destruct (open_total 4000 [] (square_file ns) ltac:(lia) FB ltac:(lia) ltac:(lia)) as (rd & O).
  destruct (open_inv 4000 [] (square_file ns) rd ltac:(lia) FB SZ O) as (A1 & A2 & A3 & A4 & A5 & _).
  assert (N : r_ns rd = ns). { rewrite A1, NQ. clear - NS. apply u64_small. unfold in_u64, two64. lia. }
  assert (T : r_nt rd = 2). { rewrite A5, N. clear - NS. cbn [square_file fsize]. rewrite getDOSz_exact by (unfold two64; lia). replace (3600 + 2 * (240 + 4 * ns) - 3600) with (2 * (240 + 4 * ns)) by lia. apply Z.div_mul. lia. }
  clear A1 A3 A4 A5.
  assert (C : copyable2 4000 [] (square_file ns) rd).
  { constructor; [exact O|exact FB|exact SZ| | | | |]; rewrite ?N, ?T; clear - NS.
    - lia.
    - lia.
    - lia.
    - replace (int16_at (fbyte (square_file ns)) 3225) with (int16_at (source_byte 250) 3225) by reflexivity. vm_compute. discriminate.
    - replace (int16_at (fbyte (square_file ns)) 3217) with 250 by reflexivity. lia. }
  clear O NQ.
  exists rd. split; [exact C|]. split; [exact T|]. split; [exact N|]. intros N2 r R.
  destruct (two_read 4000 [] _ rd C (fun _ _ => []) (fun _ _ _ => 0) 2 r ltac:(intros x y a; unfold is_byte; lia) R) as (off & lnt & m & prm & Q1 & _ & Q3 & _ & Q5 & _).
  destruct (two_head rd ltac:(rewrite T; clear; lia)) as (_ & _ & L3 & _). { rewrite A2. replace (int16_at (fbyte (square_file ns)) 3217) with 250 by reflexivity. apply inc_normal. lia. }
  unfold example2. rewrite Q1. cbn [obind global_offset local_size]. rewrite Q5. cbn [obind]. change (fold_left (fun w o => wlocal o w) (example2_head rd) w_init) with (local (example2_head rd) w_init). rewrite L3, T, N.
  clear Q1 Q5. assert (L : lnt * 2 <= lnt * ns) by (clear - N2 Q3; apply Z.mul_le_mono_nonneg_l; lia). replace (lnt * 2 <=? lnt * ns) with true by (clear - L; lia). eexists. split; reflexivity.
Qed.
