(** C107: what examples/exampleCreateFile.cc writes. *)
From Coq Require Import Reals Lra.
From Flocq Require Import Core IEEE754.BinarySingleNaN.
From Verif Require Import Base DecompModel DecompSpec DecompProofs NumEncModel NumEncSpec NumEncProofs CharEncModel CharEncProofs LayoutModel LayoutProofs DataIOModel DataIOProofs
  RuleModel RuleProofs DoubleModel ParamModel ParamProofs HeaderProofs ScalarProofs FileSpec FileModel FileProofs WriteSpec WriteProofs ParamProperties ReadProofs OpenProofs FileProperties TraceProperties.
From Verif Require Import FloatModel FloatProofs AngleModel SetOpsModel SetOpsProofs CopySpec CopyProofs ExampleModel ExampleProofs CopyProperties PieceProofs CreateModel CreateSpec CreateProofs.
Import ListNotations.
Open Scope Z_scope.

(** Arguments the example can be called with: at least one and at most 2^30 traces, a
    number of samples the format can hold, an interval within a quarter of a microsecond of
    us microseconds; an I/O block of at least two traces. *)
Record creatable (maxSize nt ns : Z) (inc : D) (us : Z) : Prop := mkCreatable {
  cr_nt : 0 < nt <= 1073741824;
  cr_ns : 0 <= ns <= 32767;
  cr_us : 1 <= us <= 32767;
  cr_inc : is_finite inc = true /\ (Rabs (B2R inc - IZR us / 1000000) <= / 4000000)%R;
  cr_max : 3600 <= maxSize /\ 2 * (240 + 4 * ns) <= maxSize }.

Definition create_head (nt ns : Z) (inc : D) : list wop := [WNs ns; WNt nt; WInc inc; WText create_text].
Lemma create_announced nt ns inc : 0 <= ns <= 32767 -> disnormal inc = true ->
  let w := local (create_head nt ns inc) w_init in
  w_err w = false /\ w_nsSet w = true /\ w_ns w = ns /\ w_inc w = inc /\ w_text w = resize text_size create_text.
Proof.
  intros NS DN. unfold create_head. cbn [local fold_left wlocal]. replace (32767 <? ns) with false by lia. cbn [wlocal w_ns w_nt w_text w_inc w_nsSet w_writeHO w_resize w_stalent w_err w_init].
  rewrite DN. cbn [wlocal w_ns w_nt w_text w_inc w_nsSet w_writeHO w_resize w_stalent w_err w_init create_text]. change (text_eqb [] create_text) with false. cbv iota. cbn [w_ns w_nt w_text w_inc w_nsSet w_err]. auto 8.
Qed.
Lemma interval_normal inc us : 1 <= us <= 32767 -> fin inc -> (Rabs (val inc - IZR us / 1000000) <= / 4000000)%R -> disnormal inc = true.
Proof.
  intros U F B. apply normal_big; [exact F|]. assert (U1 : (1 <= IZR us)%R) by (apply IZR_le; lia).
  assert (T : (bpow radix2 (-1022) <= bpow radix2 (-21))%R) by (apply bpow_le; lia). assert (U2 : (bpow radix2 (-21) = / 2097152)%R) by (cbn; lra).
  apply Rabs_le_inv in B. rewrite Rabs_pos_eq by lra. lra.
Qed.

(** The calls of a rank. *)
Lemma create_calls maxSize nt ns inc us (CR : creatable maxSize nt ns inc us) sizes1 sizes2 p r : 0 <= r < p ->
  exists off lnt prm, block_decomposition nt p r = Some (mkPiece off lnt) /\ 0 <= off /\ 0 <= lnt /\ off + lnt <= nt /\
  create_file sizes1 sizes2 nt ns inc p r = Some (create_head nt ns inc ++ [WTrace sizes1 (Range off lnt) None (Some prm) 0; WTrace sizes2 (Range off lnt) (Some (create_samples off ns)) None 0]) /\
  wf_param prm /\ p_rule prm = default_rule /\ p_sz prm = lnt /\ (forall j g, 0 <= j < lnt -> field_of (off + j) g -> holds prm j (plain_header g)).
Proof.
  intros R. destruct CR as [NT NS US IV MX]. destruct (piece_bounds nt p r ltac:(unfold in_u64, two64; lia) ltac:(lia) R) as ((off & lnt) & E & B1 & B2 & B3). cbn [global_offset local_size] in *.
  destruct (params_spec off lnt ltac:(lia) ltac:(lia) ltac:(unfold lim; lia)) as (prm & P1 & P2 & P3 & P4 & P5).
  exists off, lnt, prm. split; [exact E|]. repeat (split; [lia|]). split; [|auto]. unfold create_file. rewrite E. cbn [obind global_offset local_size]. rewrite P1. reflexivity.
Qed.
(** C107: every rank can make its calls. *)
Theorem C107_create_runs :
  forall maxSize nt ns inc us, creatable maxSize nt ns inc us -> forall sizes1 sizes2 p r, 0 <= r < p -> exists ops, create_file sizes1 sizes2 nt ns inc p r = Some ops /\ length ops = 6%nat.
Proof.
  intros maxSize nt ns inc us CR sizes1 sizes2 p r R. destruct (create_calls _ _ _ _ _ CR sizes1 sizes2 p r R) as (off & lnt & prm & _ & _ & _ & _ & E & _). eexists. split; [exact E|reflexivity].
Qed.
Print Assumptions C107_create_runs.

(** C107: whatever the number of processes and the order in which their calls take effect,
    the file has the announced size and reads back with the announced traces. *)
Theorem C107_created :
  forall maxSize nt ns inc us, creatable maxSize nt ns inc us ->
  forall p h f0 maxSize' sizes', (0 < p)%nat -> file_bytes f0 -> 3600 <= maxSize' ->
  forall (sizes1 sizes2 : nat -> list Z), (forall x, In x h -> (fst x < p)%nat) ->
  (forall r, (r < p)%nat -> create_file (sizes1 r) (sizes2 r) nt ns inc (Z.of_nat p) (Z.of_nat r) = Some (rank_ops h r)) ->
  exists f' rd, write_file maxSize p h f0 = Some f' /\ fsize f' = 3600 + nt * (240 + 4 * ns) /\
  open_file maxSize' sizes' f' = Some rd /\ r_ns rd = ns /\ r_nt rd = nt /\
  (Rabs (B2R (r_inc rd) - IZR us / 1000000) <= IZR us / 1000000 * bpow radix2 (-51))%R /\
  firstn 10 (r_text rd) = create_text /\
  (forall i, 0 <= i < nt -> created_trace f' ns i).
Proof.
  intros maxSize nt ns inc us CR p h f0 maxSize' sizes' P FB0 M' sizes1 sizes2 RK RUN. pose proof CR as [NT NS US (FI & BI) (M1 & M2)].
  assert (N64 : in_u64 nt) by (unfold in_u64, two64; lia).
  assert (F : fits nt ns).
  { assert (nt * (240 + 4 * ns) <= 1073741824 * 131308) by (apply Z.mul_le_mono_nonneg; lia). unfold fits. repeat split; try lia; unfold two64; lia. }
  set (wr := fun r => skipn 4 (rank_ops h r)).
  assert (WS : forall r, (r < p)%nat -> exists off lnt prm, block_decomposition nt (Z.of_nat p) (Z.of_nat r) = Some (mkPiece off lnt) /\ 0 <= off /\ 0 <= lnt /\ off + lnt <= nt /\
     rank_ops h r = create_head nt ns inc ++ wr r /\ wr r = [WTrace (sizes1 r) (Range off lnt) None (Some prm) 0; WTrace (sizes2 r) (Range off lnt) (Some (create_samples off ns)) None 0] /\
     wf_param prm /\ p_rule prm = default_rule /\ p_sz prm = lnt /\ (forall j g, 0 <= j < lnt -> field_of (off + j) g -> holds prm j (plain_header g))).
  { intros r R. destruct (create_calls _ _ _ _ _ CR (sizes1 r) (sizes2 r) (Z.of_nat p) (Z.of_nat r) ltac:(lia)) as (off & lnt & prm & Q1 & Q2 & Q3 & Q4 & Q5 & Q6).
    rewrite (RUN r R) in Q5. injection Q5 as Q5. exists off, lnt, prm. unfold wr. rewrite Q5. repeat (split; [assumption || reflexivity|]). exact Q6. }
  assert (DN : disnormal inc = true) by (apply (interval_normal inc us); assumption).
  destruct (create_announced nt ns inc NS DN) as (L1 & L2 & L3 & L4 & L5).
  (* the header every trace should get *)
  assert (GF : exists G : Z -> Z -> Z, forall i, 0 <= i < nt -> field_of i (G i)).
  { assert (X : forall n, exists G : Z -> Z -> Z, forall i, 0 <= i < Z.of_nat n -> i < nt -> field_of i (G i)).
    { induction n as [|n (G & IH)]; [exists (fun _ _ => 0); intros; lia|]. destruct (Z_lt_dec (Z.of_nat n) nt) as [LN|LN]; [|exists G; intros; apply IH; lia].
      destruct (want_exists (Z.of_nat n) ltac:(unfold lim; lia)) as (g & G1 & G2 & G3 & G4 & G5 & G6 & _). exists (fun j => if j =? Z.of_nat n then g else G j). intros i I I'.
      destruct (Z.eqb_spec i (Z.of_nat n)) as [->|D]; [repeat (split; [assumption|]); assumption|apply IH; lia]. }
    destruct (X (Z.to_nat nt)) as (G & H). exists G. intros i I. apply H; lia. }
  destruct GF as (G & HG).
  set (smp := fun i k => enc_f (f_of_Z (i * ns + k))). set (hdr := fun i => plain_header (G i)).
  assert (GW : forall r o, (r < p)%nat -> In o (wr r) -> good_write nt ns o /\ call_pieces smp hdr ns default_rule o).
  { intros r o R I. destruct (WS r R) as (off & lnt & prm & _ & O & N & L & _ & E & W & RL & SZ & H). rewrite E in I. destruct I as [<-|[<-|[]]].
    - split.
      + cbn [good_write in_file write_fine tcount]. split; [lia|]. split; [lia|]. split; [discriminate|]. split; [right; discriminate|]. intros q Q. injection Q as <-.
        apply holds_insert; [exact W|lia|lia|]. intros i I. exists (hdr (off + i)). rewrite Z.add_0_r. apply H; [exact I|apply HG; lia].
      + cbn [call_pieces tcount tpos]. split; [discriminate|]. intros q Q. injection Q as <-. split; [exact W|]. split; [exact RL|]. split; [lia|]. split; [lia|]. intros j J. rewrite Z.add_0_r. apply H; [exact J|apply HG; lia].
    - split.
      + cbn [good_write in_file write_fine tcount]. split; [lia|]. split; [lia|]. split; [intros q Q; injection Q as <-; apply samples_bytes|]. split; [left; discriminate|discriminate].
      + cbn [call_pieces tcount tpos]. split; [|discriminate]. intros q Q. injection Q as <-. intros j k J K. apply samples_spec; unfold lim; lia. }
  destruct (program_life maxSize p h f0 nt ns (create_head nt ns inc) wr P M1 M2 F FB0 RK) as ((f' & W) & TI); try assumption.
  { intros r R. destruct (WS r R) as (off & lnt & prm & _ & _ & _ & _ & E & _). exact E. }
  { intros o [<-|[<-|[<-|[<-|[]]]]] Q; exact Q. }
  { intros n [Q|[Q|[Q|[Q|[]]]]]; try discriminate. injection Q as <-. lia. }
  { unfold header. rewrite L4, (inc_round inc us FI ltac:(lia) BI). cbn [obind]. eauto. }
  { intros r o R I. apply (GW r o R I). }
  { intros r R. destruct (WS r R) as (off & lnt & prm & _ & _ & _ & _ & _ & E & _). rewrite E. discriminate. }
  destruct (C40_header_round_trip_partial _ _ _ _ _ _ _ maxSize' sizes' W M') as (rd & O & Q1 & Q2 & Q3 & Q4 & Q5).
  destruct (life _ _ _ _ _ _ _ W) as (f1 & hd & k & _ & _ & _ & _ & AL & _ & _ & SZ & _).
  assert (WW : forall r o, (r < p)%nat -> In o (wr r) -> writes o) by (intros r o R I; destruct (GW r o R I) as (Q & _); destruct o; try contradiction; exact Logic.I).
  assert (AN : asked_by_all h p = nt).
  { apply Z.le_antisymm; [exact AL|]. unfold asked_by_all. etransitivity; [|apply (zmax_in _ (asked (rank_ops h 0)))].
    - destruct (WS 0%nat P) as (off & lnt & prm & _ & _ & _ & _ & E & _). unfold asked, announced. rewrite E, fold_left_app. cbn [create_head fold_left]. rewrite announced_writes; [lia|]. intros o I. apply (WW 0%nat o P I).
    - apply in_map_iff. exists 0%nat. split; [reflexivity|]. apply in_seq. lia. }
  destruct (TI 0%nat P) as (TX & TN). rewrite L4 in TN. rewrite L5 in TX.
  exists f', rd. split; [apply W|]. split; [rewrite SZ, AN; reflexivity|]. split; [exact O|]. split; [exact Q1|]. split; [congruence|]. split; [|split].
  - rewrite TN in Q5. apply (Q5 us ltac:(lia) FI BI).
  - rewrite Q4, TX. vm_compute. reflexivity.
  - clear O Q1 Q2 Q3 Q4 Q5 TX TN L1 L2 L3 L4 L5 BI TI SZ AL. intros i I. destruct (block_decomposition_shares nt (Z.of_nat p) N64 ltac:(lia)) as (_ & SH & _). destruct (SH i I) as (r0 & (R0 & pc & EP & IP) & _). unfold in_piece in IP.
    assert (RP : (Z.to_nat r0 < p)%nat) by lia. destruct (WS (Z.to_nat r0) RP) as (off & lnt & prm & E & _ & _ & _ & E1 & E2 & _). rewrite Z2Nat.id in E by lia. rewrite EP in E. injection E as ->. cbn [global_offset local_size] in IP.
    assert (HC : forall x, In x h -> call_pieces smp hdr ns default_rule (snd x)).
    { intros (r1, o1) X. pose proof (RK _ X) as R1. cbn [fst snd] in *. pose proof (in_rank_ops _ _ _ X) as Y. destruct (WS r1 R1) as (off1 & lnt1 & prm1 & _ & _ & _ & _ & E1' & _). rewrite E1' in Y. apply in_app_or in Y. destruct Y as [Y|Y].
      - destruct Y as [<-|[<-|[<-|[<-|[]]]]]; exact Logic.I.
      - apply (GW r1 o1 R1 Y). }
    assert (IH : forall o, In o (wr (Z.to_nat r0)) -> In (Z.to_nat r0, o) h).
    { intros o OI. assert (IO : In o (rank_ops h (Z.to_nat r0))) by (rewrite E1; apply in_or_app; right; exact OI). unfold rank_ops in IO. apply in_map_iff in IO.
      destruct IO as ((r1 & o1) & EO1 & FI1). apply filter_In in FI1. destruct FI1 as (A & B). cbn [fst snd] in *. apply Nat.eqb_eq in B. subst. exact A. }
    rewrite E2 in IH. pose proof (IH _ (or_introl eq_refl)) as I1. pose proof (IH _ (or_intror (or_introl eq_refl))) as I2.
    pose proof (history_pieces_samples maxSize p h f0 f' nt ns smp hdr default_rule W HC i) as HS.
    destruct (history_pieces_headers maxSize p h f0 f' nt ns smp hdr default_rule W default_usable ltac:(vm_compute; reflexivity) HC ltac:(intros; apply plain_bytes) i) as (HL & _ & HF).
    { exists (Z.to_nat r0), (sizes1 (Z.to_nat r0)), (Range off lnt), None, prm, 0, (i - off). split; [exact I1|]. cbn [tcount tpos]. lia. }
    assert (HS' : forall k, 0 <= k < ns -> disk_sample f' ns i k = smp i k).
    { apply HS. exists (Z.to_nat r0), (sizes2 (Z.to_nat r0)), (Range off lnt), (create_samples off ns), None, 0, (i - off). split; [exact I2|]. cbn [tcount tpos]. lia. }
    clear HS. destruct (HG i I) as (G0 & G1 & G2 & G3 & G4 & G5).
    assert (PB : forall l, In l plain_fields -> int32_at (hdr i) l = G i l).
    { intros l L. rewrite int32_rd by (intros; apply plain_bytes). apply plain_rd32; [exact L|apply G0]. }
    assert (P71 : int16_at (hdr i) 71 = 1) by reflexivity.
    constructor.
    + intros l c L. assert (LC : In l copied_coordinates /\ In l plain_fields) by (destruct L as [L|[L|[L|[L|[L|[L|[]]]]]]]; injection L as <- <-; cbn; tauto). destruct LC as (LC & LP).
      destruct (default_coordinate l LC) as (mm & e & LK & T & EL & SC). destruct (HF mm e LK T) as (_ & CO); [rewrite SC, P71; right; left; reflexivity|]. rewrite EL, SC in CO. rewrite CO.
      unfold coordinate. rewrite P71, (PB l LP), (G5 l c L). unfold factor. cbn [Z.eqb Z.ltb Z.compare Pos.compare Pos.compare_cont]. lra.
    + destruct (default_int 189 ltac:(cbn; tauto)) as (mm & e & LK & T & EL). pose proof (HL mm e LK T) as Q. rewrite EL, PB in Q by (cbn; tauto). rewrite Q, G3. reflexivity.
    + destruct (default_int 193 ltac:(cbn; tauto)) as (mm & e & LK & T & EL). pose proof (HL mm e LK T) as Q. rewrite EL, PB in Q by (cbn; tauto). rewrite Q, G4. reflexivity.
    + destruct (default_int 5 ltac:(cbn; tauto)) as (mm & e & LK & T & EL). pose proof (HL mm e LK T) as Q. rewrite EL, PB in Q by (cbn; tauto). rewrite Q, G1. reflexivity.
    + destruct (default_int 37 ltac:(cbn; tauto)) as (mm & e & LK & T & EL). pose proof (HL mm e LK T) as Q. rewrite EL, PB in Q by (cbn; tauto). rewrite Q, G2. reflexivity.
    + intros kk K. rewrite (HS' kk K). unfold smp. rewrite dec_enc. apply of_Z_single.
      assert (i * ns <= 1073741824 * 32767) by (apply Z.mul_le_mono_nonneg; lia). assert (0 <= i * ns) by (apply Z.mul_nonneg_nonneg; lia). change (2 ^ 64) with 18446744073709551616. lia.
Qed.
Print Assumptions C107_created.

(** C107: up to trace number 2^24 - 2400 nothing is rounded in the headers, and the first
    2^24 samples are exact. *)
Theorem C107_exact_small :
  forall f ns i, created_trace f ns i -> 0 <= i <= 16774816 ->
  (forall l c, In (l, c) created_coordinates -> coordinate (disk_header f ns i) l 71 = IZR (c + i)) /\
  int32_at (disk_header f ns i) 189 = 2400 + i /\ int32_at (disk_header f ns i) 193 = 1600 + i /\
  (forall k, 0 <= k < ns -> 0 <= i * ns + k <= 16777216 -> B2R (dec_f (disk_sample f ns i k)) = IZR (i * ns + k)).
Proof.
  intros f ns i [C1 C2 C3 _ _ C6] I. assert (EX : forall z, 0 <= z <= 16777216 -> single (IZR z) = IZR z) by (intros z Z1; rewrite single_rnd; apply FloatProofs.int_rnd; unfold two24; lia).
  rewrite (EX i) in * by lia. split; [|split; [|split]].
  - intros l c L. rewrite (C1 l c L), plus_IZR. reflexivity.
  - apply eq_IZR. rewrite C2, <- plus_IZR. apply EX. lia.
  - apply eq_IZR. rewrite C3, <- plus_IZR. apply EX. lia.
  - intros k K B. destruct (C6 k K) as (_ & Q). rewrite Q. apply EX. exact B.
Qed.
Print Assumptions C107_exact_small.

(** C107: beyond, distinct traces get the same coordinates: trace 2^24 + 1 those of trace
    2^24. *)
Theorem C107_distinct_refuted :
  exists i j, 0 <= i < j /\ j < 1073741824 /\
  forall f ns, created_trace f ns i -> created_trace f ns j ->
  (forall l c, In (l, c) created_coordinates -> coordinate (disk_header f ns i) l 71 = coordinate (disk_header f ns j) l 71) /\
  int32_at (disk_header f ns i) 189 = int32_at (disk_header f ns j) 189 /\ int32_at (disk_header f ns i) 193 = int32_at (disk_header f ns j) 193.
Proof.
  exists 16777216, 16777217. split; [lia|]. split; [lia|]. intros f ns [A1 A2 A3 _ _ _] [B1 B2 B3 _ _ _].
  assert (E : single (IZR 16777217) = single (IZR 16777216)).
  { rewrite (single_rnd (IZR 16777216)), (FloatProofs.int_rnd 16777216) by (vm_compute; discriminate).
    destruct (of_Z_single 16777217 ltac:(vm_compute; discriminate)) as (_ & <-). 
    assert (Q : B2R (f_of_Z 16777217) = F2R (Float radix2 8388608 1)) by (vm_compute; reflexivity). rewrite Q. unfold F2R. cbn [Fnum Fexp]. change (bpow radix2 1) with 2%R. rewrite <- mult_IZR. reflexivity. }
  rewrite E in *. split; [|split].
  - intros l c L. rewrite (A1 l c L), (B1 l c L). reflexivity.
  - apply eq_IZR. congruence.
  - apply eq_IZR. congruence.
Qed.
Print Assumptions C107_distinct_refuted.

(** Two processes make a file of three traces of two samples, 4 ms. *)
Example C107_nonvacuous : let inc := dmul incFactor (d_of_Z 4000) in
  creatable 4000 3 2 inc 4000 /\
  exists h, (forall x, In x h -> (fst x < 2)%nat) /\
  (forall r, (r < 2)%nat -> create_file [] [] 3 2 inc (Z.of_nat 2) (Z.of_nat r) = Some (rank_ops h r)) /\ length h = 12%nat.
Proof.
  intros inc. assert (CR : creatable 4000 3 2 inc 4000).
  { constructor; try lia. destruct (inc_value 4000 ltac:(lia)) as (FI & BI). split; [exact FI|]. eapply Rle_trans; [exact BI|].
    assert (S : (bpow radix2 (-51) <= bpow radix2 (-20))%R) by (apply bpow_le; lia). assert (U : (bpow radix2 (-20) = / 1048576)%R) by (cbn; lra). pose proof (bpow_gt_0 radix2 (-51)). lra. }
  split; [exact CR|].
  destruct (C107_create_runs _ _ _ _ _ CR [] [] 2 0 ltac:(lia)) as (a & EA & LA). destruct (C107_create_runs _ _ _ _ _ CR [] [] 2 1 ltac:(lia)) as (b & EB & LB).
  exists (map (pair 0%nat) a ++ map (pair 1%nat) b).
  assert (F0 : forall n (l : list wop), rank_ops (map (pair n) l) n = l).
  { intros n l. induction l as [|o l IH]; [reflexivity|]. unfold rank_ops in *. cbn [map filter fst]. rewrite Nat.eqb_refl. cbn [map snd]. rewrite IH. reflexivity. }
  assert (F1 : forall n m (l : list wop), n <> m -> rank_ops (map (pair n) l) m = []).
  { intros n m l D. induction l as [|o l IH]; [reflexivity|]. unfold rank_ops in *. cbn [map filter fst]. destruct (Nat.eqb_spec n m); [contradiction|]. exact IH. }
  split; [|split].
  - intros x I. apply in_app_or in I. destruct I as [I|I]; apply in_map_iff in I; destruct I as (o & <- & _); cbn; lia.
  - intros r R. rewrite rank_ops_app. destruct r as [|[|r]]; [| |lia].
    + rewrite F0, F1 by lia. rewrite app_nil_r. exact EA.
    + rewrite F0, F1 by lia. exact EB.
  - rewrite app_length, !map_length, LA, LB. reflexivity.
Qed.
