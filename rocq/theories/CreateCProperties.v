(** C112: what examples/exampleCreateFile.c writes, and what it does not. *)
From Coq Require Import Reals Lra.
From Flocq Require Import Core IEEE754.BinarySingleNaN.
From Verif Require Import Base DecompModel DecompSpec DecompProofs NumEncModel NumEncSpec NumEncProofs CharEncModel CharEncProofs LayoutModel LayoutProofs DataIOModel DataIOProofs
  RuleModel RuleProofs DoubleModel ParamModel ParamProofs HeaderProofs ScalarProofs FileSpec FileModel FileProofs WriteSpec WriteProofs ParamProperties ReadProofs OpenProofs FileProperties TraceProperties.
From Verif Require Import FloatModel FloatProofs AngleModel SetOpsModel SetOpsProofs CopySpec CopyProofs ExampleModel ExampleProofs CopyProperties PieceProofs CreateModel CreateSpec CreateProofs CreateProperties CreateCModel CreateCSpec CreateCProofs.
Import ListNotations.
Open Scope Z_scope.

(** Arguments as for the C++ version; any interval from zero to (not including) a second,
    such as the default 0.01 and every interval a file can hold. *)
Record creatable_c (maxSize nt ns : Z) (inc : D) : Prop := mkCreatableC {
  cc_nt : 0 < nt <= 1073741824;
  cc_ns : 0 <= ns <= 32767;
  cc_inc : is_finite inc = true /\ (0 <= B2R inc < 1)%R;
  cc_max : 3600 <= maxSize /\ 2 * (240 + 4 * ns) <= maxSize }.

Lemma create_calls_c maxSize nt ns inc (CR : creatable_c maxSize nt ns inc) sizes p r : 0 <= r < p ->
  exists off lnt prm, block_decomposition nt p r = Some (mkPiece off lnt) /\ 0 <= off /\ 0 <= lnt /\ off + lnt <= nt /\
  create_file_c sizes nt ns inc p r = Some (create_head nt ns (d_of_Z 0) ++ [WTrace sizes (Range off lnt) (Some (create_samples off ns)) (Some prm) 0]) /\
  wf_param prm /\ p_rule prm = default_rule /\ p_sz prm = lnt /\ (forall j g, 0 <= j < lnt -> field_of_c (off + j) g -> holds prm j (plain_header g)).
Proof.
  intros R. destruct CR as [NT NS (FI & IV) MX]. destruct (piece_bounds nt p r ltac:(unfold in_u64, two64; lia) ltac:(lia) R) as ((off & lnt) & E & B1 & B2 & B3). cbn [global_offset local_size] in *.
  destruct (params_spec_c off lnt ltac:(lia) ltac:(lia) ltac:(unfold lim; lia)) as (prm & P1 & P2 & P3 & P4 & P5).
  exists off, lnt, prm. split; [exact E|]. repeat (split; [lia|]). split; [|auto]. unfold create_file_c. rewrite (interval_lost inc FI IV). cbn [obind]. rewrite E. cbn [obind global_offset local_size]. rewrite P1. reflexivity.
Qed.
(** C112: every rank can make its calls. *)
Theorem C112_runs :
  forall maxSize nt ns inc, creatable_c maxSize nt ns inc -> forall sizes p r, 0 <= r < p -> exists ops, create_file_c sizes nt ns inc p r = Some ops /\ length ops = 5%nat.
Proof.
  intros maxSize nt ns inc CR sizes p r R. destruct (create_calls_c _ _ _ _ CR sizes p r R) as (off & lnt & prm & _ & _ & _ & _ & E & _). eexists. split; [exact E|reflexivity].
Qed.
Print Assumptions C112_runs.

Lemma bad_interval nt ns ops : w_err (local (create_head nt ns (d_of_Z 0) ++ ops) w_init) = true.
Proof.
  rewrite local_app. apply err_stays. unfold create_head. cbn [local fold_left wlocal]. assert (D0 : disnormal (d_of_Z 0) = false) by (vm_compute; reflexivity).
  destruct (32767 <? ns); cbn [wlocal w_ns w_nt w_text w_inc w_nsSet w_writeHO w_resize w_stalent w_err w_init]; rewrite D0;
    repeat (match goal with |- context [if ?b then _ else _] => destruct b end); cbn [w_err]; reflexivity.
Qed.

(** C112: the traces are written as announced, whatever the number of processes and the order
    of their calls, but the file header is not: the first 3600 bytes stay what they were, and
    every process ends with an error.  Missing: the header. *)
Theorem C112_created_partial :
  forall maxSize nt ns inc, creatable_c maxSize nt ns inc ->
  forall p h f0, (0 < p)%nat -> file_bytes f0 ->
  forall (sizes : nat -> list Z), (forall x, In x h -> (fst x < p)%nat) ->
  (forall r, (r < p)%nat -> create_file_c (sizes r) nt ns inc (Z.of_nat p) (Z.of_nat r) = Some (rank_ops h r)) ->
  exists f', write_file maxSize p h f0 = Some f' /\
  (forall r, (r < p)%nat -> w_err (rank_state h r) = true) /\
  (forall q, q < 3600 -> fbyte f' q = fbyte f0 q) /\
  fsize f' = Z.max (fsize f0) (3600 + nt * (240 + 4 * ns)) /\
  (forall i, 0 <= i < nt -> created_trace_c f' ns i).
Proof.
  intros maxSize nt ns inc CR p h f0 P FB0 sizes RK RUN. pose proof CR as [NT NS (FI & BI) (M1 & M2)].
  assert (N64 : in_u64 nt) by (unfold in_u64, two64; lia).
  assert (F : fits nt ns).
  { assert (nt * (240 + 4 * ns) <= 1073741824 * 131308) by (apply Z.mul_le_mono_nonneg; lia). unfold fits. repeat split; try lia; unfold two64; lia. }
  set (wr := fun r => skipn 4 (rank_ops h r)).
  assert (WS : forall r, (r < p)%nat -> exists off lnt prm, block_decomposition nt (Z.of_nat p) (Z.of_nat r) = Some (mkPiece off lnt) /\ 0 <= off /\ 0 <= lnt /\ off + lnt <= nt /\
     rank_ops h r = create_head nt ns (d_of_Z 0) ++ wr r /\ wr r = [WTrace (sizes r) (Range off lnt) (Some (create_samples off ns)) (Some prm) 0] /\
     wf_param prm /\ p_rule prm = default_rule /\ p_sz prm = lnt /\ (forall j g, 0 <= j < lnt -> field_of_c (off + j) g -> holds prm j (plain_header g))).
  { intros r R. destruct (create_calls_c _ _ _ _ CR (sizes r) (Z.of_nat p) (Z.of_nat r) ltac:(lia)) as (off & lnt & prm & Q1 & Q2 & Q3 & Q4 & Q5 & Q6).
    rewrite (RUN r R) in Q5. injection Q5 as Q5. exists off, lnt, prm. unfold wr. rewrite Q5. repeat (split; [assumption || reflexivity|]). exact Q6. }
  assert (ER : forall r, (r < p)%nat -> w_err (rank_state h r) = true).
  { intros r R. destruct (WS r R) as (off & lnt & prm & _ & _ & _ & _ & E & _). unfold rank_state. rewrite E. apply bad_interval. }
  set (inc' := dmul incFactor (d_of_Z 4000)).
  destruct (inc_value 4000 ltac:(lia)) as (FI' & BI'). fold inc' in FI', BI'.
  assert (BI2 : (Rabs (val inc' - IZR 4000 / 1000000) <= / 4000000)%R).
  { eapply Rle_trans; [exact BI'|]. assert (S : (bpow radix2 (-51) <= bpow radix2 (-20))%R) by (apply bpow_le; lia). assert (U : (bpow radix2 (-20) = / 1048576)%R) by (cbn; lra). pose proof (bpow_gt_0 radix2 (-51)). lra. }
  assert (DN : disnormal inc' = true) by (apply (interval_normal inc' 4000); [lia|exact FI'|exact BI2]).
  destruct (create_announced nt ns inc' NS DN) as (L1 & L2 & L3 & L4 & L5).
  set (h2 := hist_inc inc' h).
  assert (RK2 : forall x, In x h2 -> (fst x < p)%nat) by (intros x I; apply in_map_iff in I; destruct I as (y & <- & I); cbn [fst]; apply RK; exact I).
  assert (RO2 : forall r, (r < p)%nat -> rank_ops h2 r = create_head nt ns inc' ++ wr r).
  { intros r R. unfold h2. rewrite rank_ops_inc. destruct (WS r R) as (off & lnt & prm & _ & _ & _ & _ & E & E2 & _). rewrite E, E2. reflexivity. }
  assert (GF : exists G : Z -> Z -> Z, forall i, 0 <= i < nt -> field_of_c i (G i)).
  { destruct (fields_exist_c 0 nt ltac:(lia) ltac:(unfold lim; lia)) as (G & HG). exists G. intros i I. apply (HG i I). }
  destruct GF as (G & HG).
  set (smp := fun i k => enc_f (f_of_Z (i * ns + k))). set (hdr := fun i => plain_header (G i)).
  assert (GW : forall r o, (r < p)%nat -> In o (wr r) -> good_write nt ns o /\ call_pieces smp hdr ns default_rule o).
  { intros r o R I. destruct (WS r R) as (off & lnt & prm & _ & O & N & L & _ & E & W & RL & SZ & H). rewrite E in I. destruct I as [<-|[]].
    assert (HH : forall j, 0 <= j < lnt -> holds prm j (hdr (off + j))) by (intros j J; apply H; [exact J|apply HG; lia]). split.
    - cbn [good_write in_file write_fine tcount]. split; [lia|]. split; [lia|]. split; [intros q Q; injection Q as <-; apply samples_bytes|]. split; [left; discriminate|]. intros q Q. injection Q as <-.
      apply holds_insert; [exact W|lia|lia|]. intros i I. exists (hdr (off + i)). rewrite Z.add_0_r. apply HH. exact I.
    - cbn [call_pieces tcount tpos]. split.
      + intros q Q. injection Q as <-. intros j k J K. apply samples_spec; unfold lim; lia.
      + intros q Q. injection Q as <-. split; [exact W|]. split; [exact RL|]. split; [lia|]. split; [lia|]. intros j J. rewrite Z.add_0_r. apply HH. exact J. }
  destruct (program_life maxSize p h2 f0 nt ns (create_head nt ns inc') wr P M1 M2 F FB0 RK2) as ((f2 & W) & TI); try assumption.
  { intros o [<-|[<-|[<-|[<-|[]]]]] Q; exact Q. }
  { intros n [Q|[Q|[Q|[Q|[]]]]]; try discriminate. injection Q as <-. lia. }
  { unfold header. rewrite L4, (inc_round inc' 4000 FI' ltac:(lia) BI2). cbn [obind]. eauto. }
  { intros r o R I. apply (GW r o R I). }
  { intros r R. destruct (WS r R) as (off & lnt & prm & _ & _ & _ & _ & _ & E & _). rewrite E. discriminate. }
  clear TI L1 L2 L3 L4 L5.
  destruct (life _ _ _ _ _ _ _ W) as (f & hd & k & R2 & _ & _ & _ & AL & _ & _ & SZ & _ & LF & _).
  assert (AN : asked_by_all h2 p = nt).
  { apply Z.le_antisymm; [exact AL|]. unfold asked_by_all. etransitivity; [|apply (zmax_in _ (asked (rank_ops h2 0)))].
    - unfold asked, announced. rewrite (RO2 0%nat P), fold_left_app. cbn [create_head fold_left]. rewrite announced_writes; [lia|]. intros o I. destruct (GW 0%nat o P I) as (Q & _). destruct o; try contradiction; exact Logic.I.
    - apply in_map_iff. exists 0%nat. split; [reflexivity|]. apply in_seq. lia. }
  rewrite AN in SZ.
  assert (R1 : run maxSize h f0 = Some f). { rewrite <- R2. unfold run. symmetry. apply (run_inc maxSize inc' h [] f0). }
  pose proof (wf_ok _ _ _ _ _ _ _ W) as OK2.
  destruct (run_content _ _ _ _ _ _ M2 F OK2 R2) as (_ & _ & C3 & C4 & C5 & _). pose proof (run_headers _ _ _ _ _ _ M2 F OK2 R2) as RH.
  assert (HC : forall x, In x h2 -> call_pieces smp hdr ns default_rule (snd x)).
  { intros (r1, o1) X. pose proof (RK2 _ X) as Q1. cbn [fst snd] in *. pose proof (in_rank_ops _ _ _ X) as Y. rewrite (RO2 r1 Q1) in Y. apply in_app_or in Y. destruct Y as [Y|Y].
    - destruct Y as [<-|[<-|[<-|[<-|[]]]]]; exact Logic.I.
    - apply (GW r1 o1 Q1 Y). }
  assert (OWN : forall i, 0 <= i < nt -> exists r sz off lnt prm, In (r, WTrace sz (Range off lnt) (Some (create_samples off ns)) (Some prm) 0) h2 /\ 0 <= i - off < lnt).
  { intros i I. destruct (block_decomposition_shares nt (Z.of_nat p) N64 ltac:(lia)) as (_ & SH & _). destruct (SH i I) as (r0 & (R0 & pc & EP & IP) & _). unfold in_piece in IP.
    assert (RP : (Z.to_nat r0 < p)%nat) by lia. destruct (WS (Z.to_nat r0) RP) as (off & lnt & prm & E & _ & _ & _ & _ & E2 & _). rewrite Z2Nat.id in E by lia. rewrite EP in E. injection E as ->. cbn [global_offset local_size] in IP.
    exists (Z.to_nat r0), (sizes (Z.to_nat r0)), off, lnt, prm. split; [|lia].
    assert (IO : In (WTrace (sizes (Z.to_nat r0)) (Range off lnt) (Some (create_samples off ns)) (Some prm) 0) (rank_ops h2 (Z.to_nat r0))) by (rewrite (RO2 _ RP), E2; apply in_or_app; right; left; reflexivity).
    unfold rank_ops in IO. apply in_map_iff in IO. destruct IO as ((r1 & o1) & EO1 & FI1). apply filter_In in FI1. destruct FI1 as (A & B). cbn [fst snd] in *. apply Nat.eqb_eq in B. subst. exact A. }
  (* the file reaches the end of its last trace *)
  assert (LEN : forall i, 0 <= i < nt -> trace_at ns i + 240 + 4 * ns <= fsize f).
  { intros i I. destruct (OWN i I) as (r & sz & off & lnt & prm & IN & J).
    assert (HW : trace_at ns i + 240 <= fsize f).
    { destruct (last_md h2 i) as [(p', tr)|] eqn:LM.
      - destruct (RH i p' tr LM) as (st & sz' & sk & j & buf & Q). { intros x X. specialize (HC x X). destruct (snd x) as [| | | |sz'' t' trc' [p''|] skip']; cbn [md_ok call_pieces] in *; try exact Logic.I.
          destruct HC as (_ & CC). destruct (CC p'' eq_refl) as (A1 & A2 & A3 & A4 & _). rewrite A2. destruct default_usable as (U1 & U2). auto. }
        apply Q.
      - exfalso. apply (last_some (fun o => written_md o i) h2 None) in LM; [exact LM|]. right. exists r, (WTrace sz (Range off lnt) (Some (create_samples off ns)) (Some prm) 0). split; [exact IN|].
        cbn [written_md]. pose proof (find_pos_of (Range off lnt) i (i - off) ltac:(cbn [tcount]; lia) ltac:(cbn [tpos]; lia)). destruct (find_pos _ i); [discriminate|contradiction]. }
    destruct (Z.eq_dec ns 0) as [->|NP]; [lia|].
    destruct (run_content _ _ _ _ _ _ M2 F OK2 R2) as (C1 & _). destruct (last_samples ns h2 i) as [s|] eqn:LS; [apply (C1 i s LS); lia|].
    exfalso. apply (last_some (fun o => written ns o i) h2 None) in LS; [exact LS|]. right. exists r, (WTrace sz (Range off lnt) (Some (create_samples off ns)) (Some prm) 0). split; [exact IN|].
    cbn [written]. pose proof (find_pos_of (Range off lnt) i (i - off) ltac:(cbn [tcount]; lia) ltac:(cbn [tpos]; lia)). destruct (find_pos _ i); [discriminate|contradiction]. }
  assert (SF : fsize f = Z.max (fsize f0) (trace_at ns nt)).
  { pose proof (LEN (nt - 1) ltac:(lia)) as Q. unfold trace_at in *. lia. }
  exists f. split.
  { unfold write_file. rewrite R1. cbn [obind]. apply close_error.
    - destruct p; [lia|discriminate].
    - intros w I. apply in_map_iff in I. destruct I as (r & <- & I). apply in_seq in I. apply ER. lia. }
  split; [exact ER|]. split; [exact C3|]. split; [rewrite SF; unfold trace_at; reflexivity|].
  assert (EQ : forall i x, 0 <= i < nt -> 0 <= x < 240 + 4 * ns -> fbyte f2 (trace_at ns i + x) = fbyte f (trace_at ns i + x)).
  { intros i x I X. pose proof (LEN i I). assert (T : trace_at ns i + 240 + 4 * ns <= trace_at ns nt).
    { unfold trace_at. assert ((i + 1) * (240 + 4 * ns) <= nt * (240 + 4 * ns)) by (apply Z.mul_le_mono_nonneg_r; lia). lia. }
    assert (T0 : 3600 <= trace_at ns i) by (unfold trace_at; assert (0 <= i * (240 + 4 * ns)) by (apply Z.mul_nonneg_nonneg; lia); lia).
    rewrite LF by (rewrite SZ; lia). replace (trace_at ns i + x <? fsize f) with true by lia. reflexivity. }
  intros i I. destruct (OWN i I) as (r0 & sz0 & off & lnt & prm & IN & J).
  pose proof (history_pieces_samples maxSize p h2 f0 f2 nt ns smp hdr default_rule W HC i) as HS.
  destruct (history_pieces_headers maxSize p h2 f0 f2 nt ns smp hdr default_rule W default_usable ltac:(vm_compute; reflexivity) HC ltac:(intros; apply plain_bytes) i) as (HL & _ & HF).
  { exists r0, sz0, (Range off lnt), (Some (create_samples off ns)), prm, 0, (i - off). split; [exact IN|]. cbn [tcount tpos]. lia. }
  assert (HS' : forall k, 0 <= k < ns -> disk_sample f ns i k = smp i k).
  { intros k0 K0. rewrite <- (HS ltac:(exists r0, sz0, (Range off lnt), (create_samples off ns), (Some prm), 0, (i - off); split; [exact IN|]; cbn [tcount tpos]; lia) k0 K0).
    symmetry. apply disk_sample_ext; [|exact K0]. intros j J0. rewrite <- !Z.add_assoc. apply EQ; [exact I|lia]. }
  clear HS. 
  assert (DH : forall x, 0 <= x < 240 -> disk_header f ns i x = disk_header f2 ns i x) by (intros x X; unfold disk_header; symmetry; apply EQ; [exact I|lia]).
  assert (D32 : forall l, 1 <= l <= 237 -> int32_at (disk_header f ns i) l = int32_at (disk_header f2 ns i) l) by (intros l L; unfold int32_at; rewrite !DH by lia; reflexivity).
  assert (D16 : forall l, 1 <= l <= 239 -> int16_at (disk_header f ns i) l = int16_at (disk_header f2 ns i) l) by (intros l L; unfold int16_at; rewrite !DH by lia; reflexivity).
  destruct (HG i I) as (G0 & G1 & G2 & G3 & G4 & G5).
  assert (PB : forall l, In l plain_fields -> int32_at (hdr i) l = G i l).
  { intros l L. rewrite int32_rd by (intros; apply plain_bytes). apply plain_rd32; [exact L|apply G0]. }
  assert (P71 : int16_at (hdr i) 71 = 1) by reflexivity.
  constructor.
  - intros l c L. assert (LC : In l copied_coordinates /\ In l plain_fields /\ 1 <= l <= 237) by (destruct L as [L|[L|[L|[L|[L|[L|[]]]]]]]; injection L as <- <-; cbn; (split; [tauto|split; [tauto|lia]])). destruct LC as (LC & LP & LL).
    destruct (default_coordinate l LC) as (mm & e & LK & T & EL & SC). destruct (HF mm e LK T) as (_ & CO); [rewrite SC, P71; right; left; reflexivity|]. rewrite EL, SC in CO.
    unfold coordinate in *. rewrite D32, D16 by lia. rewrite CO. rewrite P71, (PB l LP), (G5 l c L). unfold factor. cbn [Z.eqb Z.ltb Z.compare Pos.compare Pos.compare_cont]. lra.
  - rewrite D32 by lia. destruct (default_int 189 ltac:(cbn; tauto)) as (mm & e & LK & T & EL). pose proof (HL mm e LK T) as Q. rewrite EL, PB in Q by (cbn; tauto). rewrite Q, G3. reflexivity.
  - rewrite D32 by lia. destruct (default_int 193 ltac:(cbn; tauto)) as (mm & e & LK & T & EL). pose proof (HL mm e LK T) as Q. rewrite EL, PB in Q by (cbn; tauto). rewrite Q, G4. reflexivity.
  - rewrite D32 by lia. destruct (default_int 5 ltac:(cbn; tauto)) as (mm & e & LK & T & EL). pose proof (HL mm e LK T) as Q. rewrite EL, PB in Q by (cbn; tauto). rewrite Q, G1. reflexivity.
  - rewrite D32 by lia. destruct (default_int 37 ltac:(cbn; tauto)) as (mm & e & LK & T & EL). pose proof (HL mm e LK T) as Q. rewrite EL, PB in Q by (cbn; tauto). rewrite Q, G2. reflexivity.
  - intros kk K. rewrite (HS' kk K). unfold smp. rewrite dec_enc. apply of_Z_single.
    assert (i * ns <= 1073741824 * 32767) by (apply Z.mul_le_mono_nonneg; lia). assert (0 <= i * ns) by (apply Z.mul_nonneg_nonneg; lia). change (2 ^ 64) with 18446744073709551616. lia.
Qed.
Print Assumptions C112_created_partial.

(** C112: a file made anew does not read back with the announced traces: the reader finds no
    samples, and a trace for every 240 bytes. *)
Theorem C112_reads_back_refuted :
  forall maxSize nt ns inc, creatable_c maxSize nt ns inc -> 0 < ns ->
  forall p h f0 maxSize' sizes', (0 < p)%nat -> fsize f0 = 0 -> (forall q, fbyte f0 q = 0) -> 3600 <= maxSize' ->
  forall (sizes : nat -> list Z), (forall x, In x h -> (fst x < p)%nat) ->
  (forall r, (r < p)%nat -> create_file_c (sizes r) nt ns inc (Z.of_nat p) (Z.of_nat r) = Some (rank_ops h r)) ->
  exists f' rd, write_file maxSize p h f0 = Some f' /\ open_file maxSize' sizes' f' = Some rd /\
  r_ns rd = 0 /\ r_ns rd <> ns /\ r_nt rd = nt * (240 + 4 * ns) / 240.
Proof.
  intros maxSize nt ns inc CR NP p h f0 maxSize' sizes' P S0 B0 M' sizes RK RUN. pose proof CR as [NT NS _ _].
  destruct (C112_created_partial maxSize nt ns inc CR p h f0 P ltac:(intros q; rewrite B0; unfold is_byte; lia) sizes RK RUN) as (f' & W & _ & HB & SZ & _).
  assert (nt * (240 + 4 * ns) <= 1073741824 * 131308) by (apply Z.mul_le_mono_nonneg; lia). assert (0 <= nt * (240 + 4 * ns)) by (apply Z.mul_nonneg_nonneg; lia).
  assert (S1 : fsize f' = 3600 + nt * (240 + 4 * ns)) by lia.
  destruct (open_blank maxSize' sizes' f' M' ltac:(unfold two64; lia)) as (rd & O & Q1 & Q2 & _). { intros q Q. rewrite HB by lia. apply B0. }
  exists f', rd. split; [exact W|]. split; [exact O|]. split; [exact Q1|]. split; [lia|]. rewrite Q2, S1. f_equal. lia.
Qed.
Print Assumptions C112_reads_back_refuted.

(** Two processes, three traces of two samples, an interval of a hundredth of a second. *)
Example C112_nonvacuous : let inc := ddiv (d_of_Z 1) (d_of_Z 100) in
  creatable_c 4000 3 2 inc /\
  exists h, (forall x, In x h -> (fst x < 2)%nat) /\
  (forall r, (r < 2)%nat -> create_file_c [] 3 2 inc (Z.of_nat 2) (Z.of_nat r) = Some (rank_ops h r)) /\ length h = 10%nat.
Proof.
  intros inc. assert (CR : creatable_c 4000 3 2 inc).
  { constructor; try lia. split; [vm_compute; reflexivity|]. assert (Q : B2R inc = F2R (Float radix2 5764607523034235 (-59))) by (vm_compute; reflexivity). rewrite Q. unfold F2R. cbn [Fnum Fexp].
    assert (T : (bpow radix2 (-59) = / 576460752303423488)%R) by reflexivity. rewrite T. lra. }
  split; [exact CR|].
  destruct (C112_runs _ _ _ _ CR [] 2 0 ltac:(lia)) as (a & EA & LA). destruct (C112_runs _ _ _ _ CR [] 2 1 ltac:(lia)) as (b & EB & LB).
  exists (map (pair 0%nat) a ++ map (pair 1%nat) b).
  assert (F0 : forall n (l : list wop), rank_ops (map (pair n) l) n = l).
  { intros n l. induction l as [|o l IH]; [reflexivity|]. unfold rank_ops in *. cbn [map filter fst]. rewrite Nat.eqb_refl. cbn [map snd]. rewrite IH. reflexivity. }
  assert (F1 : forall n m (l : list wop), n <> m -> rank_ops (map (pair n) l) m = []).
  { intros n m l D. induction l as [|o l IH]; [reflexivity|]. unfold rank_ops in *. cbn [map filter fst]. destruct (Nat.eqb_spec n m); [contradiction|]. exact IH. }
  split; [|split].
  - intros x I. apply in_app_or in I. destruct I as [I|I]; apply in_map_iff in I; destruct I as (o & <- & _); cbn; lia.
  - intros r R. rewrite rank_ops_app. destruct r as [|[|r]]; [| |lia].
    + rewrite F0, F1 by lia. rewrite app_nil_r. exact EA.
    + rewrite F0, F1 by lia. exact EB.
  - rewrite app_length, !map_length, LA, LB. reflexivity.
Qed.
