(** Proofs about the programs that change a file while they copy it. *)
From Coq Require Import Reals Lra.
From Flocq Require Import Core IEEE754.BinarySingleNaN.
From Verif Require Import Base DecompModel DecompSpec DecompProofs NumEncModel NumEncSpec NumEncProofs CharEncModel CharEncProofs LayoutModel LayoutProofs DataIOModel DataIOProofs
  RuleModel RuleProofs DoubleModel ParamModel ParamProofs HeaderProofs ScalarProofs FileSpec FileModel FileProofs WriteSpec WriteProofs ParamProperties ReadProofs OpenProofs FileProperties TraceProperties.
From Verif Require Import FloatModel FloatProofs SetOpsModel SetOpsProofs CopySpec CopyProofs ExampleModel ExampleProofs CopyProperties PieceProofs CreateSpec CreateProofs ModModel ModSpec.
Import ListNotations.
Open Scope Z_scope.

(** ---- blocks ---- *)
Definition aligned (goff lnt tcnt : Z) (b : Z * Z) : Prop :=
  (fst b = goff /\ snd b = 0) \/ exists q, 0 <= q /\ fst b = goff + tcnt * q /\ tcnt * q < lnt /\ snd b = Z.min tcnt (lnt - tcnt * q).
Lemma loop_aligned goff lnt tcnt : 0 <= goff -> 0 < tcnt -> lnt + tcnt < two64 -> goff + lnt < two64 ->
  forall fuel q b, 0 <= q -> In b (rw_loop fuel goff lnt tcnt (tcnt * q)) -> aligned goff lnt tcnt b.
Proof.
  intros G T S1 S2. induction fuel as [|fuel IH]; intros q b Q H; [destruct H|]. cbn [rw_loop] in H. assert (P : 0 <= tcnt * q) by (apply Z.mul_nonneg_nonneg; lia).
  destruct (Z.ltb_spec (tcnt * q) lnt); [|destruct H].
  rewrite !u64_small in H by (unfold in_u64; lia). destruct H as [<-|H].
  - right. exists q. cbn [fst snd]. split; [exact Q|]. split; [reflexivity|]. split; [assumption|]. destruct (Z.ltb_spec (tcnt * q + tcnt) lnt); lia.
  - apply (IH (q + 1)); [lia|]. replace (tcnt * (q + 1)) with (tcnt * q + tcnt) by lia. exact H.
Qed.
Lemma aligned_range goff lnt tcnt b : 0 <= lnt -> 0 < tcnt -> aligned goff lnt tcnt b -> goff <= fst b /\ 0 <= snd b /\ fst b + snd b <= goff + lnt.
Proof. intros L T [(A & B)|(q & Q & A & B & C)]; [lia|]. assert (0 <= tcnt * q) by (apply Z.mul_nonneg_nonneg; lia). lia. Qed.
Lemma aligned_first d tcnt b i : 0 < tcnt -> aligned (global_offset d) (local_size d) tcnt b -> fst b <= i < fst b + snd b -> block_first d tcnt i = fst b /\ block_count d tcnt i = snd b.
Proof.
  intros T [(A & B)|(q & Q & A & B & C)] I; [lia|].
  assert (E : block_first d tcnt i = fst b).
  { unfold block_first. rewrite A in *. replace ((i - global_offset d) / tcnt) with q; [lia|]. apply (Z.div_unique _ _ _ (i - global_offset d - tcnt * q)); [left; lia|lia]. }
  split; [exact E|]. unfold block_count. rewrite E. lia.
Qed.
Lemma rank_blocks blk (Q : Z * Z -> wop -> Prop) rd memmax p r :
  fits (r_nt rd) (r_ns rd) -> 0 <= r < p -> Z.max 240 (4 * r_ns rd) <= memmax < two64 -> 0 < r_nt rd ->
  let tcnt := rw_tcnt memmax (r_ns rd) in
  (forall d b, block_decomposition (r_nt rd) p r = Some d -> 0 <= global_offset d -> 0 <= local_size d -> global_offset d + local_size d <= r_nt rd -> aligned (global_offset d) (local_size d) tcnt b -> exists o, blk b = Some o /\ Q b o) ->
  exists ws d, block_program blk rd memmax p r = Some (announcements rd ++ ws) /\ ws <> [] /\ 0 < tcnt /\
  block_decomposition (r_nt rd) p r = Some d /\ 0 <= global_offset d /\ 0 <= local_size d /\ global_offset d + local_size d <= r_nt rd /\
  Z.of_nat (length ws) = nblk (rw_biggest (r_nt rd) p) tcnt /\
  (forall o, In o ws -> exists b, aligned (global_offset d) (local_size d) tcnt b /\ Q b o) /\
  (forall i, global_offset d <= i < global_offset d + local_size d -> exists b o, In o ws /\ Q b o /\ aligned (global_offset d) (local_size d) tcnt b /\ fst b <= i < fst b + snd b).
Proof.
  intros F R MM NP. cbv zeta. intros HB. set (ns := r_ns rd) in *. set (nt := r_nt rd) in *. pose proof F as (NS & NT & S64 & W).
  assert (NTS : nt * 240 < two64). { assert (nt * 240 <= nt * (240 + 4 * ns)) by (apply Z.mul_le_mono_nonneg_l; lia). lia. }
  assert (N64 : in_u64 nt) by (unfold in_u64; lia).
  assert (TC : rw_tcnt memmax ns = memmax / Z.max 240 (4 * ns)).
  { unfold rw_tcnt. rewrite getDFSz_exact by lia. change getMDSz with 240. destruct (Z.ltb_spec 240 (4 * ns)); f_equal; lia. }
  assert (T0 : 0 < rw_tcnt memmax ns). { rewrite TC. apply Z.div_str_pos. lia. }
  assert (T1 : rw_tcnt memmax ns * 240 <= memmax).
  { rewrite TC. etransitivity; [|apply (Z.mul_div_le memmax (Z.max 240 (4 * ns))); lia]. rewrite Z.mul_comm. apply Z.mul_le_mono_nonneg_r; [apply Z.div_pos; lia|lia]. }
  destruct (rw_piece_eq nt p r N64 R) as (d & E & EP & B1 & B2 & B3). destruct (biggest_spec nt p N64 ltac:(lia)) as (BG & BN). pose proof (BG r R) as BR. rewrite EP in *.
  assert (LT : local_size d + rw_tcnt memmax ns < two64) by lia.
  destruct (calls_spec (global_offset d) (local_size d) (rw_biggest nt p) (rw_tcnt memmax ns)) as (cs & EC & LC & CR & CC); try lia.
  assert (AL : forall b, In b cs -> aligned (global_offset d) (local_size d) (rw_tcnt memmax ns) b).
  { intros b IB. pose proof EC as EC'. unfold rw_calls in EC'. replace (rw_tcnt memmax ns =? 0) with false in EC' by lia. apply (f_equal (fun o => match o with Some x => x | None => cs end)) in EC'. cbv beta iota in EC'. rewrite <- EC' in IB.
    apply in_app_or in IB. destruct IB as [IB|IB].
    - apply (loop_aligned (global_offset d) (local_size d) (rw_tcnt memmax ns) B1 T0 LT ltac:(lia) (S (Z.to_nat (local_size d))) 0 b ltac:(lia)). rewrite Z.mul_0_r. exact IB.
    - apply repeat_spec in IB. subst b. left. auto. }
  destruct (omap_blocks blk (fun b o => aligned (global_offset d) (local_size d) (rw_tcnt memmax ns) b /\ Q b o) cs) as (ws & EW & LW & WA & WB).
  { intros b IB. destruct (HB d b E B1 B2 B3 (AL b IB)) as (o & EO & QO). exists o. auto. }
  exists ws, d. unfold block_program. fold nt ns. rewrite E. cbn [obind]. rewrite EC. cbn [obind]. rewrite EW. cbn [obind].
  split; [reflexivity|]. split; [|split; [exact T0|split; [reflexivity|split; [exact B1|split; [exact B2|split; [exact B3|split; [lia|split]]]]]]].
  - intros ->. cbn [length] in LW. destruct (block_decomposition_shares nt p N64 ltac:(lia)) as (_ & SH & _). destruct (SH 0 ltac:(lia)) as (r0 & (R0 & pc & EP0 & IP) & _).
    specialize (BG r0 R0). unfold rw_piece in BG. rewrite EP0 in BG. unfold in_piece in IP.
    pose proof (nblk_mono 1 (rw_biggest nt p) _ T0 ltac:(lia)) as NB. rewrite (nblk_1 1) in NB by lia. lia.
  - intros o I. destruct (WA o I) as (b & _ & A & Q1). eauto.
  - intros i I. destruct (CC (i - global_offset d) ltac:(lia)) as (b & B & BX). destruct (WB b B) as (o & O & A & Q1). exists b, o. repeat (split; [assumption|]). lia.
Qed.

(** ---- a program that announces what it read and then writes ---- *)
Record readable (maxSize : Z) (sizes0 : list Z) (f : file) (rd : reader) : Prop := mkReadable {
  ra_open : open_file maxSize sizes0 f = Some rd;
  ra_bytes : file_bytes f;
  ra_size : 3600 <= fsize f < two64;
  ra_max : 3600 <= maxSize /\ 2 * (240 + 4 * r_ns rd) <= maxSize;
  ra_ns : r_ns rd <= 32767;
  ra_nt : 0 < r_nt rd;
  ra_interval : 1 <= int16_at (fbyte f) 3217 }.
Lemma program_written maxSize sizes0 f rd p h f0 maxSize' sizes' wr : readable maxSize sizes0 f rd ->
  (0 < p)%nat -> file_bytes f0 -> 3600 <= maxSize' -> (forall x, In x h -> (fst x < p)%nat) ->
  (forall r, (r < p)%nat -> rank_ops h r = announcements rd ++ wr r) ->
  (forall r o, (r < p)%nat -> In o (wr r) -> good_write (r_nt rd) (r_ns rd) o) -> (forall r, (r < p)%nat -> wr r <> []) ->
  exists f' rd', written_file maxSize p h f0 f' (r_nt rd) (r_ns rd) /\ asked_by_all h p = r_nt rd /\ fsize f' = 3600 + r_nt rd * (240 + 4 * r_ns rd) /\
  open_file maxSize' sizes' f' = Some rd' /\ r_ns rd' = r_ns rd /\ r_nt rd' = r_nt rd /\ r_inc rd' = r_inc rd /\ (plain_text (r_text rd) -> r_text rd' = r_text rd).
Proof.
  intros [CO CB CS (CM & CM2) CN CT CI] P FB0 M' RK RO GW NE.
  destruct (open_inv _ _ _ _ CM CB CS CO) as (E1 & E2 & E3 & E4 & E5 & _). destruct (open_fits _ _ _ _ CM CB CS CO CN) as (F & HT). clear CO. pose proof F as (N0 & NT0 & S64 & W64).
  set (ns := r_ns rd) in *. set (nt := r_nt rd) in *. set (us := int16_at (fbyte f) 3217) in *.
  assert (US : us <= 32767). { unfold us. rewrite int16_rd by apply CB. pose proof (rd16_range (fbyte f) (3217 - 1)) as Q. unfold in_s16 in Q. lia. }
  destruct (local_announced rd ltac:(fold ns; lia) NT0 ltac:(rewrite E2; apply inc_normal; lia)) as (L1 & L2 & L3 & L4 & L5).
  assert (IV : fin (r_inc rd) /\ (Rabs (val (r_inc rd) - IZR us / 1000000) <= / 4000000)%R).
  { rewrite E2. destruct (inc_value us ltac:(lia)) as (FI & BI). split; [exact FI|]. eapply Rle_trans; [exact BI|].
    assert (K1 : (IZR us <= 32767)%R) by (apply IZR_le; lia). assert (K0 : (0 <= IZR us)%R) by (apply (IZR_le 0); lia).
    assert (S : (bpow radix2 (-51) <= bpow radix2 (-20))%R) by (apply bpow_le; lia). assert (U : (bpow radix2 (-20) = / 1048576)%R) by (cbn; lra). pose proof (bpow_gt_0 radix2 (-51)).
    eapply Rle_trans; [apply Rmult_le_compat_l; [lra|exact S]|]. rewrite U. lra. }
  destruct IV as (FI & BI).
  destruct (program_life maxSize p h f0 nt ns (announcements rd) wr P CM CM2 F FB0 RK RO) as ((f' & W) & TI); try assumption.
  { intros o [<-|[<-|[<-|[<-|[]]]]] Q; exact Q. }
  { intros n [Q|[Q|[Q|[Q|[]]]]]; try discriminate. injection Q as <-. fold nt. lia. }
  { unfold header. rewrite L4, (inc_round (r_inc rd) us FI ltac:(lia) BI). cbn [obind]. eauto. }
  destruct (C40_header_round_trip_partial _ _ _ _ _ _ _ maxSize' sizes' W M') as (rd' & O & Q1 & Q2 & Q3 & Q4 & Q5).
  destruct (life _ _ _ _ _ _ _ W) as (f1 & hd & k & _ & _ & _ & _ & AL & _ & _ & SZ & _).
  assert (AN : asked_by_all h p = nt).
  { apply Z.le_antisymm; [exact AL|]. unfold asked_by_all. etransitivity; [|apply (zmax_in _ (asked (rank_ops h 0)))].
    - unfold asked. rewrite (RO 0%nat P), announced_nt; [fold nt; apply Z.le_max_l|]. intros o I. specialize (GW 0%nat o P I). destruct o; try contradiction. exact Logic.I.
    - apply in_map_iff. exists 0%nat. split; [reflexivity|]. apply in_seq. clear -P. lia. }
  destruct (TI 0%nat P) as (TX & TN). rewrite L4 in TN. rewrite L5 in TX.
  exists f', rd'. split; [exact W|]. split; [exact AN|]. split; [rewrite SZ, AN; reflexivity|]. split; [exact O|]. clear O. split; [exact Q1|]. split; [congruence|]. split.
  - assert (X : r_inc rd' = w_inc (rank_state h 0)). { destruct (Q5 us ltac:(lia)) as (_ & _ & Q6); [rewrite TN; exact FI|rewrite TN; exact BI|]. apply Q6. rewrite TN. exact E2. }
    rewrite X. exact TN.
  - intros ((a & kk & TA & NZ) & CNT). rewrite Q4, TX. clear - TA NZ CNT E4.
    assert (LT : length (r_text rd) = 3200%nat).
    { rewrite E4. unfold read_text. assert (LZ : length (map (fbyte f) (zr 3200)) = 3200%nat) by (rewrite map_length; reflexivity).
      assert (LF : length (firstn text_size (map (fbyte f) (zr 3200))) = 3200%nat) by (rewrite firstn_length, LZ; reflexivity).
      destruct (Nat.ltb _ _); [exact LF|]. rewrite map_length. exact LF. }
    clear E4.
    assert (CA : c_string (r_text rd) = a) by (rewrite TA; apply c_string_plain; exact NZ).
    assert (LA : (length a <= 3200)%nat) by (rewrite TA, app_length in LT; lia).
    assert (KK : repeat 0 kk = repeat 0 (3200 - length a)) by (f_equal; rewrite TA, app_length, repeat_length in LT; lia).
    assert (WT : forall t, t = (match c_string (r_text rd) with [] => [] | s => resize text_size s end) -> t ++ repeat 0 (3200 - length t) = r_text rd).
    { intros t ->. rewrite CA. destruct a as [|c a].
      - cbn [app length]. rewrite TA, KK. reflexivity.
      - rewrite resize_short by exact LA. rewrite app_length, repeat_length. change text_size with 3200%nat. replace (3200 - (length (c :: a) + (3200 - length (c :: a))))%nat with 0%nat by lia.
        cbn [repeat]. rewrite app_nil_r, TA, KK. reflexivity. }
    rewrite (WT _ eq_refl). rewrite <- (app_nil_r (r_text rd)) at 1.
    pose proof (text_roundtrip (r_text rd) [] ltac:(rewrite LT; reflexivity) CNT) as RT. cbn [stored_text] in RT. rewrite resize_short in RT by (rewrite LT; reflexivity).
    rewrite LT in RT. change (text_size - 3200)%nat with 0%nat in RT. cbn [repeat] in RT. rewrite !app_nil_r in RT. rewrite app_nil_r. exact RT.
Qed.

(** ---- reading a block ---- *)
Lemma read_block maxSize sz rd f off n trc :
  2 * (240 + 4 * r_ns rd) <= maxSize -> fits (r_nt rd) (r_ns rd) -> has_traces f (r_nt rd) (r_ns rd) -> file_bytes f -> (trc <> None -> r_format rd <> 1) ->
  (forall m, trc = Some m -> mem_bytes m) -> 0 <= off -> 0 <= n -> off + n <= r_nt rd ->
  exists trc' prm, readTrace maxSize sz rd off n trc (Some (newParam default_rule n)) 0 f = Some (trc', Some prm) /\
  wf_param prm /\ p_rule prm = default_rule /\ p_sz prm = n /\ (forall j, 0 <= j < n -> holds prm j (disk_header f (r_ns rd) (off + j))) /\
  (trc = None -> trc' = None) /\
  (forall m, trc = Some m -> exists m', trc' = Some m' /\ mem_bytes m' /\ forall j k, 0 <= j < n -> 0 <= k < r_ns rd -> sample m' (j * r_ns rd + k) = disk_sample f (r_ns rd) (off + j) k).
Proof.
  intros M F HT FB FM MB O N L. set (ns := r_ns rd) in *. set (nt := r_nt rd) in *. pose proof F as (NS & NT & S64 & _).
  assert (NTS : nt < two64). { assert (nt * 240 <= nt * (240 + 4 * ns)) by (apply Z.mul_le_mono_nonneg_l; lia). lia. }
  unfold readTrace. fold nt ns.
  assert (CL : clamp nt off n = n). { unfold clamp. destruct (Z.eqb_spec n 0); [reflexivity|]. rewrite u64_small by (unfold in_u64; lia). replace (nt <? off + n) with false by lia. reflexivity. }
  rewrite CL. destruct default_usable as (FR & FO).
  set (fm := match trc with None => 5 | Some _ => r_format rd end).
  assert (RE : readTraceT maxSize sz (r_format rd) ns (Range off n) trc (Some (newParam default_rule n)) 0 f = readTraceT maxSize sz fm ns (Range off n) trc (Some (newParam default_rule n)) 0 f).
  { unfold fm. destruct trc; [reflexivity|]. unfold readTraceT. destruct (obj_io _ _ _ _ _ _ _); reflexivity || (cbn [obind option_map]; destruct (extractParam _ _ _ _ _ _) as [q|]; [cbn [obind]; destruct (set_labels _ _ _ q); reflexivity|reflexivity]). }
  rewrite RE. assert (FM' : fm <> 1) by (unfold fm; destruct trc; [apply FM; discriminate|lia]). clearbody fm. clear RE FM.
  destruct (read_spec maxSize sz fm ns nt (Range off n) trc (Some (newParam default_rule n)) 0 f M F) as (trc' & prm' & E & A0 & A & _ & B); try assumption.
  { unfold tvalid. cbn. lia. }
  { intros; apply FB. }
  { right; discriminate. }
  { intros q Q. injection Q as <-. split; [apply newParam_wf; [apply default_good|exact N]|]. split; [exact FR|]. split; [exact FO|]. split; [exact default_label|]. cbn. lia. }
  destruct (B _ eq_refl) as (p' & -> & B1 & B2 & B3 & B4 & _). cbn [p_rule p_sz newParam tcount tpos] in *.
  exists trc', p'. split; [exact E|]. split; [exact B1|]. split; [exact B2|]. split; [exact B3|]. split; [|split; [exact A0|]].
  - intros j J m e v LK D. rewrite B2 in LK. pose proof (B4 j m e v J LK D) as Q. rewrite Z.add_0_r in Q. exact Q.
  - intros m Q. destruct (A m Q) as (m' & -> & A1 & A2). exists m'. split; [reflexivity|]. split; [|intros j k J K; apply A1; assumption]. subst trc.
    intros a. destruct (read_converted _ _ _ _ _ _ _ _ _ _ _ E FM') as (tb & TB). cbn [tcount] in TB.
    assert (NN : 0 <= ns * n) by (apply Z.mul_nonneg_nonneg; lia).
    destruct (Z_lt_dec a 0); [rewrite A2 by lia; apply (MB m eq_refl)|]. destruct (Z_lt_dec a (4 * (ns * n))); [|rewrite A2 by lia; apply (MB m eq_refl)]. rewrite TB. apply from_disk_bytes; lia.
Qed.

(** ---- exchanging the source coordinates ---- *)
Lemma swap_rows n p : wf_param p -> p_rule p = default_rule -> 0 <= n <= p_sz p -> (forall i, 0 <= i < n -> exists x y, getPrm i 20 p = Some (VF x) /\ getPrm i 21 p = Some (VF y)) ->
  exists p', fold_left (fun op i => obind op (swap_source i)) (zr n) (Some p) = Some p' /\ wf_param p' /\ p_rule p' = default_rule /\ p_sz p' = p_sz p /\
  (forall i, 0 <= i < n -> getPrm i 20 p' = getPrm i 21 p /\ getPrm i 21 p' = getPrm i 20 p) /\ (forall i m, 0 <= i < n -> m <> 20 -> m <> 21 -> getPrm i m p' = getPrm i m p).
Proof.
  intros W R N H.
  assert (L20 : lookup 20 (translate default_rule) = Some (mkEntry MFloat 0 73 71)) by (vm_compute; reflexivity).
  assert (L21 : lookup 21 (translate default_rule) = Some (mkEntry MFloat 1 77 71)) by (vm_compute; reflexivity).
  assert (X : forall js p, wf_param p -> p_rule p = default_rule -> n <= p_sz p -> NoDup js -> (forall j, In j js -> 0 <= j < n) ->
    (forall i, In i js -> exists x y, getPrm i 20 p = Some (VF x) /\ getPrm i 21 p = Some (VF y)) ->
    exists p', fold_left (fun op i => obind op (swap_source i)) js (Some p) = Some p' /\ wf_param p' /\ p_rule p' = default_rule /\ p_sz p' = p_sz p /\
    (forall i, In i js -> getPrm i 20 p' = getPrm i 21 p /\ getPrm i 21 p' = getPrm i 20 p) /\
    (forall i m, 0 <= i < n -> ~ In i js \/ (m <> 20 /\ m <> 21) -> getPrm i m p' = getPrm i m p)).
  { induction js as [|j js IH]; intros q Wq Rq Nq NDj Hj Hv.
    - exists q. split; [reflexivity|]. split; [exact Wq|]. split; [exact Rq|]. split; [reflexivity|]. split; [intros i []|intros; reflexivity].
    - cbn [fold_left obind]. pose proof (Hj j (or_introl eq_refl)) as J. inversion NDj as [|u us NI NDj']. subst u us.
      destruct (Hv j (or_introl eq_refl)) as (x & y & GX & GY). unfold swap_source at 2. rewrite GX, GY. cbn [obind].
      destruct (set_get q j 20 (VF y) _ Wq ltac:(rewrite Rq; exact L20) ltac:(lia) Logic.I) as (q1 & E1 & R1 & W1 & S1 & G1 & O1). rewrite E1. cbn [obind].
      destruct (set_get q1 j 21 (VF x) _ W1 ltac:(rewrite R1, Rq; exact L21) ltac:(lia) Logic.I) as (q2 & E2 & R2 & W2 & S2 & G2 & O2). rewrite E2.
      assert (OT : forall i m, 0 <= i < n -> i <> j \/ (m <> 20 /\ m <> 21) -> getPrm i m q2 = getPrm i m q).
      { intros i m I D. rewrite O2 by (lia || (intros Q; injection Q as -> ->; lia)). apply O1; [lia|]. intros Q; injection Q as -> ->. lia. }
      destruct (IH q2 W2 ltac:(congruence) ltac:(lia) NDj' ltac:(intros; apply Hj; right; assumption)) as (q3 & E3 & W3 & R3 & S3 & G3 & O3).
      { intros i I. assert (D : i <> j) by (intros ->; contradiction). rewrite !OT by (first [left; exact D|apply Hj; right; exact I]). apply Hv. right. exact I. }
      exists q3. split; [exact E3|]. split; [exact W3|]. split; [exact R3|]. split; [lia|]. split.
      + intros i [<-|I].
        * rewrite !O3 by (lia || (left; exact NI)). rewrite G2, O2 by (lia || (intros Q; discriminate Q || (injection Q; lia))). rewrite G1, GX, GY. auto.
        * assert (D : i <> j) by (intros ->; contradiction). pose proof (Hj i (or_intror I)) as IR. destruct (G3 i I) as (A & B). rewrite A, B, !OT by (first [left; exact D|exact IR]). auto.
      + intros i m I D. rewrite O3; [apply OT; [exact I|]|exact I|].
        * destruct D as [D|D]; [left; intros ->; apply D; left; reflexivity|right; exact D].
        * destruct D as [D|D]; [left; intros Y; apply D; right; exact Y|right; exact D]. }
  destruct (X (zr n) p W R ltac:(lia) (nodup_zrange (Z.to_nat n)) ltac:(intros j J; apply in_zr in J; lia)) as (p' & E & W' & R' & S' & G & O).
  { intros i I. apply in_zr in I. apply H. lia. }
  exists p'. split; [exact E|]. split; [exact W'|]. split; [exact R'|]. split; [exact S'|]. split.
  - intros i I. apply G, in_zr. exact I.
  - intros i m I D1 D2. apply O; [exact I|right; auto].
Qed.
(** The header with the two fields exchanged. *)
Definition swap_header (hd : mem) : mem := fun x => if (72 <=? x) && (x <? 76) then hd (x + 4) else if (76 <=? x) && (x <? 80) then hd (x - 4) else hd x.
Lemma swap_rd32_a hd : rd32 (swap_header hd) 72 = rd32 hd 76. Proof. reflexivity. Qed.
Lemma swap_rd32_b hd : rd32 (swap_header hd) 76 = rd32 hd 72. Proof. reflexivity. Qed.
Lemma default_entries m e : lookup m (translate default_rule) = Some e ->
  In (m, e) [(5, mkEntry MLong 3 5 0); (27, mkEntry MLong 2 193 0); (26, mkEntry MLong 1 189 0); (14, mkEntry MLong 0 37 0);
    (25, mkEntry MFloat 5 185 71); (24, mkEntry MFloat 4 181 71); (23, mkEntry MFloat 3 85 71); (22, mkEntry MFloat 2 81 71); (21, mkEntry MFloat 1 77 71); (20, mkEntry MFloat 0 73 71);
    (1, mkEntry MIndex 1 0 0); (2, mkEntry MIndex 0 0 0)].
Proof. intros L. apply ReadProofs.lookup_in in L. assert (T : translate default_rule = [(5, mkEntry MLong 3 5 0); (27, mkEntry MLong 2 193 0); (26, mkEntry MLong 1 189 0); (14, mkEntry MLong 0 37 0);
    (25, mkEntry MFloat 5 185 71); (24, mkEntry MFloat 4 181 71); (23, mkEntry MFloat 3 85 71); (22, mkEntry MFloat 2 81 71); (21, mkEntry MFloat 1 77 71); (20, mkEntry MFloat 0 73 71);
    (1, mkEntry MIndex 1 0 0); (2, mkEntry MIndex 0 0 0)]) by (vm_compute; reflexivity). rewrite <- T. exact L. Qed.
Lemma swap_holds p p' i hd : p_rule p = default_rule -> p_rule p' = default_rule -> holds p i hd -> getPrm i 20 p' = getPrm i 21 p -> getPrm i 21 p' = getPrm i 20 p ->
  (forall m, m <> 20 -> m <> 21 -> getPrm i m p' = getPrm i m p) -> holds p' i (swap_header hd).
Proof.
  intros R R' H A B O m e v L D. rewrite R' in L. pose proof L as L0. apply default_entries in L. unfold holds in H. rewrite R in H.
  assert (L20 : lookup 20 (translate default_rule) = Some (mkEntry MFloat 0 73 71)) by (vm_compute; reflexivity).
  assert (L21 : lookup 21 (translate default_rule) = Some (mkEntry MFloat 1 77 71)) by (vm_compute; reflexivity).
  cbn [In] in L.
  repeat (destruct L as [L|L]; [pose proof (f_equal fst L) as M1; pose proof (f_equal snd L) as M2; cbn [fst snd] in M1, M2; clear L; rewrite <- M1 in *; rewrite <- M2 in *; clear M1 M2;
    first [discriminate D
          |rewrite O by lia; apply (H _ _ v L0); exact D
          |rewrite A; apply (H _ _ v L21); exact D
          |rewrite B; apply (H _ _ v L20); exact D]|]).
  destruct L.
Qed.
Lemma coordinates_held p i hd : p_rule p = default_rule -> holds p i hd -> exists x y, getPrm i 20 p = Some (VF x) /\ getPrm i 21 p = Some (VF y).
Proof.
  intros R H. unfold holds in H. rewrite R in H. do 2 eexists. split.
  - apply (H 20 (mkEntry MFloat 0 73 71)); [vm_compute; reflexivity|reflexivity].
  - apply (H 21 (mkEntry MFloat 1 77 71)); [vm_compute; reflexivity|reflexivity].
Qed.
