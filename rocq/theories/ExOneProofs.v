(** Files made with any interval: what the header and the traces hold. *)
From Coq Require Import Reals Lra.
From Flocq Require Import Core IEEE754.BinarySingleNaN.
From Verif Require Import Base DecompModel DecompSpec DecompProofs NumEncModel NumEncSpec NumEncProofs CharEncModel CharEncProofs LayoutModel LayoutProofs DataIOModel DataIOProofs
  RuleModel RuleProofs DoubleModel ParamModel ParamProofs HeaderProofs ScalarProofs FileSpec FileModel FileProofs WriteSpec WriteProofs ParamProperties ReadProofs OpenProofs FileProperties TraceProperties.
From Verif Require Import FloatModel FloatProofs AngleModel SetOpsModel SetOpsProofs CopySpec CopyProofs ExampleModel ExampleProofs CopyProperties PieceProofs CreateModel CreateSpec CreateProofs CreateProperties CreateCModel CreateCSpec CreateCProofs ExOneModel.
Import ListNotations.
Open Scope Z_scope.

Lemma life_inc maxSize p h f0 f' nt ns maxSize' sizes rd : written_file maxSize p h f0 f' nt ns -> 3600 <= maxSize' -> open_file maxSize' sizes f' = Some rd ->
  forall k, dlround (ddiv (w_inc (rank_state h 0)) incFactor) = Some k -> r_inc rd = dmul incFactor (d_of_Z (s16 k)).
Proof.
  intros W M O k DK. destruct (life _ _ _ _ _ _ _ W) as (f & hd & k' & _ & FA & NS & NS0 & _ & _ & K & SZ & B1 & _ & X1 & X2 & X3 & X4).
  rewrite (open_spec maxSize' sizes f' hd _ _ M FA NS SZ B1 X1) in O. apply (f_equal (option_map r_inc)) in O. cbn [option_map r_inc] in O.
  rewrite DK in K. assert (k' = k) as -> by congruence. rewrite X2 in O. apply (f_equal (fun o => match o with Some x => x | None => r_inc rd end)) in O. symmetry. exact O.
Qed.

(** Arguments with an interval of k microseconds, k any number. *)
Record makeable (maxSize nt ns : Z) (inc : D) (k : Z) : Prop := mkMakeable {
  mk_nt : 0 < nt <= 1073741824;
  mk_ns : 0 <= ns <= 32767;
  mk_normal : disnormal inc = true;
  mk_inc : dlround (ddiv inc incFactor) = Some k;
  mk_max : 3600 <= maxSize /\ 2 * (240 + 4 * ns) <= maxSize }.
Definition make_file_c (sizes : list Z) (nt ns : Z) (inc : D) (p r : Z) : option (list wop) :=
  obind (block_decomposition nt p r) (fun dec => obind (create_params_c (global_offset dec) (local_size dec)) (fun prm =>
  Some (create_head nt ns inc ++ [WTrace sizes (Range (global_offset dec) (local_size dec)) (Some (create_samples (global_offset dec) ns)) (Some prm) 0]))).
Lemma make_calls maxSize nt ns inc k (CR : makeable maxSize nt ns inc k) sizes1 sizes2 p r : 0 <= r < p ->
  exists off lnt prm, block_decomposition nt p r = Some (mkPiece off lnt) /\ 0 <= off /\ 0 <= lnt /\ off + lnt <= nt /\
  create_file sizes1 sizes2 nt ns inc p r = Some (create_head nt ns inc ++ [WTrace sizes1 (Range off lnt) None (Some prm) 0; WTrace sizes2 (Range off lnt) (Some (create_samples off ns)) None 0]) /\
  wf_param prm /\ p_rule prm = default_rule /\ p_sz prm = lnt /\ (forall j g, 0 <= j < lnt -> field_of (off + j) g -> holds prm j (plain_header g)).
Proof.
  intros R. destruct CR as [NT NS _ _ MX]. destruct (piece_bounds nt p r ltac:(unfold in_u64, two64; lia) ltac:(lia) R) as ((off & lnt) & E & B1 & B2 & B3). cbn [global_offset local_size] in *.
  destruct (params_spec off lnt ltac:(lia) ltac:(lia) ltac:(unfold lim; lia)) as (prm & P1 & P2 & P3 & P4 & P5).
  exists off, lnt, prm. split; [exact E|]. repeat (split; [lia|]). split; [|auto]. unfold create_file. rewrite E. cbn [obind global_offset local_size]. rewrite P1. reflexivity.
Qed.
Lemma make_calls_c maxSize nt ns inc k (CR : makeable maxSize nt ns inc k) sizes p r : 0 <= r < p ->
  exists off lnt prm, block_decomposition nt p r = Some (mkPiece off lnt) /\ 0 <= off /\ 0 <= lnt /\ off + lnt <= nt /\
  make_file_c sizes nt ns inc p r = Some (create_head nt ns inc ++ [WTrace sizes (Range off lnt) (Some (create_samples off ns)) (Some prm) 0]) /\
  wf_param prm /\ p_rule prm = default_rule /\ p_sz prm = lnt /\ (forall j g, 0 <= j < lnt -> field_of_c (off + j) g -> holds prm j (plain_header g)).
Proof.
  intros R. destruct CR as [NT NS _ _ MX]. destruct (piece_bounds nt p r ltac:(unfold in_u64, two64; lia) ltac:(lia) R) as ((off & lnt) & E & B1 & B2 & B3). cbn [global_offset local_size] in *.
  destruct (params_spec_c off lnt ltac:(lia) ltac:(lia) ltac:(unfold lim; lia)) as (prm & P1 & P2 & P3 & P4 & P5).
  exists off, lnt, prm. split; [exact E|]. repeat (split; [lia|]). split; [|auto]. unfold make_file_c. rewrite E. cbn [obind global_offset local_size]. rewrite P1. reflexivity.
Qed.

Lemma made maxSize nt ns inc kk0 : makeable maxSize nt ns inc kk0 ->
  forall p h f0 maxSize' sizes', (0 < p)%nat -> file_bytes f0 -> 3600 <= maxSize' ->
  forall (sizes1 sizes2 : nat -> list Z), (forall x, In x h -> (fst x < p)%nat) ->
  (forall r, (r < p)%nat -> create_file (sizes1 r) (sizes2 r) nt ns inc (Z.of_nat p) (Z.of_nat r) = Some (rank_ops h r)) ->
  exists f' rd, write_file maxSize p h f0 = Some f' /\ fsize f' = 3600 + nt * (240 + 4 * ns) /\
  open_file maxSize' sizes' f' = Some rd /\ r_ns rd = ns /\ r_nt rd = nt /\
  r_inc rd = dmul incFactor (d_of_Z (s16 kk0)) /\
  firstn 10 (r_text rd) = create_text /\
  (forall i, 0 <= i < nt -> created_trace f' ns i).
Proof.
  intros CR p h f0 maxSize' sizes' P FB0 M' sizes1 sizes2 RK RUN. pose proof CR as [NT NS DN KR (M1 & M2)].
  assert (N64 : in_u64 nt) by (unfold in_u64, two64; lia).
  assert (F : fits nt ns).
  { assert (nt * (240 + 4 * ns) <= 1073741824 * 131308) by (apply Z.mul_le_mono_nonneg; lia). unfold fits. repeat split; try lia; unfold two64; lia. }
  set (wr := fun r => skipn 4 (rank_ops h r)).
  assert (WS : forall r, (r < p)%nat -> exists off lnt prm, block_decomposition nt (Z.of_nat p) (Z.of_nat r) = Some (mkPiece off lnt) /\ 0 <= off /\ 0 <= lnt /\ off + lnt <= nt /\
     rank_ops h r = create_head nt ns inc ++ wr r /\ wr r = [WTrace (sizes1 r) (Range off lnt) None (Some prm) 0; WTrace (sizes2 r) (Range off lnt) (Some (create_samples off ns)) None 0] /\
     wf_param prm /\ p_rule prm = default_rule /\ p_sz prm = lnt /\ (forall j g, 0 <= j < lnt -> field_of (off + j) g -> holds prm j (plain_header g))).
  { intros r R. destruct (make_calls _ _ _ _ _ CR (sizes1 r) (sizes2 r) (Z.of_nat p) (Z.of_nat r) ltac:(lia)) as (off & lnt & prm & Q1 & Q2 & Q3 & Q4 & Q5 & Q6).
    rewrite (RUN r R) in Q5. injection Q5 as Q5. exists off, lnt, prm. unfold wr. rewrite Q5. repeat (split; [assumption || reflexivity|]). exact Q6. }
  destruct (create_announced nt ns inc NS DN) as (L1 & L2 & L3 & L4 & L5).
  (* the header every trace should get *)
  assert (GF : exists G : Z -> Z -> Z, forall i, 0 <= i < nt -> field_of i (G i)).
  { assert (X : forall n, exists G : Z -> Z -> Z, forall i, 0 <= i < Z.of_nat n -> i < nt -> field_of i (G i)).
    { induction n as [|n (G & IH)]; [exists (fun _ _ => 0); intros; lia|]. destruct (Z_lt_dec (Z.of_nat n) nt) as [LN|LN]; [|exists G; intros; apply IH; lia].
      destruct (want_exists (Z.of_nat n) ltac:(unfold lim; lia)) as (g & G1 & G2 & G3 & G4 & G5 & G6 & _). exists (fun j => if j =? Z.of_nat n then g else G j). intros i I I'.
      destruct (Z.eqb_spec i (Z.of_nat n)) as [->|D]; [repeat (split; [assumption|]); assumption|apply IH; lia]. }
    destruct (X (Z.to_nat nt)) as (G & H). exists G. intros i I. apply H; lia. }
  destruct GF as (G & HG).
  set (smp := fun i k => enc_f (f_of_Z (i * ns + k))). set (hdr := fun i => plain_header (G i)).
  assert (GW : forall r o, (r < p)%nat -> In o (wr r) -> good_write nt ns o /\ call_pieces smp hdr ns default_rule o).
  { intros r o R I. destruct (WS r R) as (off & lnt & prm & _ & O & N & L & _ & E & W & RL & SZ & H). rewrite E in I. destruct I as [<-|[<-|[]]].
    - split.
      + cbn [good_write in_file write_fine tcount]. split; [lia|]. split; [lia|]. split; [discriminate|]. split; [right; discriminate|]. intros q Q. injection Q as <-.
        apply holds_insert; [exact W|lia|lia|]. intros i I. exists (hdr (off + i)). rewrite Z.add_0_r. apply H; [exact I|apply HG; lia].
      + cbn [call_pieces tcount tpos]. split; [discriminate|]. intros q Q. injection Q as <-. split; [exact W|]. split; [exact RL|]. split; [lia|]. split; [lia|]. intros j J. rewrite Z.add_0_r. apply H; [exact J|apply HG; lia].
    - split.
      + cbn [good_write in_file write_fine tcount]. split; [lia|]. split; [lia|]. split; [intros q Q; injection Q as <-; apply samples_bytes|]. split; [left; discriminate|discriminate].
      + cbn [call_pieces tcount tpos]. split; [|discriminate]. intros q Q. injection Q as <-. intros j k J K. apply samples_spec; unfold lim; lia. }
  destruct (program_life maxSize p h f0 nt ns (create_head nt ns inc) wr P M1 M2 F FB0 RK) as ((f' & W) & TI); try assumption.
  { intros r R. destruct (WS r R) as (off & lnt & prm & _ & _ & _ & _ & E & _). exact E. }
  { intros o [<-|[<-|[<-|[<-|[]]]]] Q; exact Q. }
  { intros n [Q|[Q|[Q|[Q|[]]]]]; try discriminate. injection Q as <-. lia. }
  { unfold header. rewrite L4, KR. cbn [obind]. eauto. }
  { intros r o R I. apply (GW r o R I). }
  { intros r R. destruct (WS r R) as (off & lnt & prm & _ & _ & _ & _ & _ & E & _). rewrite E. discriminate. }
  destruct (C40_header_round_trip_partial _ _ _ _ _ _ _ maxSize' sizes' W M') as (rd & O & Q1 & Q2 & Q3 & Q4 & _). pose proof (life_inc _ _ _ _ _ _ _ _ _ _ W M' O) as Q5.
  destruct (life _ _ _ _ _ _ _ W) as (f1 & hd & k & _ & _ & _ & _ & AL & _ & _ & SZ & _).
  assert (WW : forall r o, (r < p)%nat -> In o (wr r) -> writes o) by (intros r o R I; destruct (GW r o R I) as (Q & _); destruct o; try contradiction; exact Logic.I).
  assert (AN : asked_by_all h p = nt).
  { apply Z.le_antisymm; [exact AL|]. unfold asked_by_all. etransitivity; [|apply (zmax_in _ (asked (rank_ops h 0)))].
    - destruct (WS 0%nat P) as (off & lnt & prm & _ & _ & _ & _ & E & _). unfold asked, announced. rewrite E, fold_left_app. cbn [create_head fold_left]. rewrite announced_writes; [lia|]. intros o I. apply (WW 0%nat o P I).
    - apply in_map_iff. exists 0%nat. split; [reflexivity|]. apply in_seq. lia. }
  destruct (TI 0%nat P) as (TX & TN). rewrite L4 in TN. rewrite L5 in TX.
  exists f', rd. split; [apply W|]. split; [rewrite SZ, AN; reflexivity|]. split; [exact O|]. split; [exact Q1|]. split; [congruence|]. split; [|split].
  - apply Q5. rewrite TN. exact KR.
  - rewrite Q4, TX. vm_compute. reflexivity.
  - clear O Q1 Q2 Q3 Q4 Q5 TX TN L1 L2 L3 L4 L5 TI SZ AL. intros i I. destruct (block_decomposition_shares nt (Z.of_nat p) N64 ltac:(lia)) as (_ & SH & _). destruct (SH i I) as (r0 & (R0 & pc & EP & IP) & _). unfold in_piece in IP.
    assert (RP : (Z.to_nat r0 < p)%nat) by lia. destruct (WS (Z.to_nat r0) RP) as (off & lnt & prm & E & _ & _ & _ & E1 & E2 & _). rewrite Z2Nat.id in E by lia. rewrite EP in E. injection E as ->. cbn [global_offset local_size] in IP.
    assert (HC : forall x, In x h -> call_pieces smp hdr ns default_rule (snd x)).
    { intros (r1, o1) X. pose proof (RK _ X) as R1. cbn [fst snd] in *. pose proof (in_rank_ops _ _ _ X) as Y. destruct (WS r1 R1) as (off1 & lnt1 & prm1 & _ & _ & _ & _ & E1' & _). rewrite E1' in Y. apply in_app_or in Y. destruct Y as [Y|Y].
      - destruct Y as [<-|[<-|[<-|[<-|[]]]]]; exact Logic.I.
      - apply (GW r1 o1 R1 Y). }
    assert (IH : forall o, In o (wr (Z.to_nat r0)) -> In (Z.to_nat r0, o) h).
    { intros o OI. assert (IO : In o (rank_ops h (Z.to_nat r0))) by (rewrite E1; apply in_or_app; right; exact OI). unfold rank_ops in IO. apply in_map_iff in IO.
      destruct IO as ((r1 & o1) & EO1 & FI1). apply filter_In in FI1. destruct FI1 as (A & B). cbn [fst snd] in *. apply Nat.eqb_eq in B. subst. exact A. }
    rewrite E2 in IH. pose proof (IH _ (or_introl eq_refl)) as I1. pose proof (IH _ (or_intror (or_introl eq_refl))) as I2.
    pose proof (history_pieces_samples maxSize p h f0 f' nt ns smp hdr default_rule W HC i) as HS.
    destruct (history_pieces_headers maxSize p h f0 f' nt ns smp hdr default_rule W default_usable ltac:(vm_compute; reflexivity) HC ltac:(intros; apply plain_bytes) i) as (HL & _ & HF).
    { exists (Z.to_nat r0), (sizes1 (Z.to_nat r0)), (Range off lnt), None, prm, 0, (i - off). split; [exact I1|]. cbn [tcount tpos]. lia. }
    assert (HS' : forall k, 0 <= k < ns -> disk_sample f' ns i k = smp i k).
    { apply HS. exists (Z.to_nat r0), (sizes2 (Z.to_nat r0)), (Range off lnt), (create_samples off ns), None, 0, (i - off). split; [exact I2|]. cbn [tcount tpos]. lia. }
    clear HS. destruct (HG i I) as (G0 & G1 & G2 & G3 & G4 & G5).
    assert (PB : forall l, In l plain_fields -> int32_at (hdr i) l = G i l).
    { intros l L. rewrite int32_rd by (intros; apply plain_bytes). apply plain_rd32; [exact L|apply G0]. }
    assert (P71 : int16_at (hdr i) 71 = 1) by reflexivity.
    constructor.
    + intros l c L. assert (LC : In l copied_coordinates /\ In l plain_fields) by (destruct L as [L|[L|[L|[L|[L|[L|[]]]]]]]; injection L as <- <-; cbn; tauto). destruct LC as (LC & LP).
      destruct (default_coordinate l LC) as (mm & e & LK & T & EL & SC). destruct (HF mm e LK T) as (_ & CO); [rewrite SC, P71; right; left; reflexivity|]. rewrite EL, SC in CO. rewrite CO.
      unfold coordinate. rewrite P71, (PB l LP), (G5 l c L). unfold factor. cbn [Z.eqb Z.ltb Z.compare Pos.compare Pos.compare_cont]. lra.
    + destruct (default_int 189 ltac:(cbn; tauto)) as (mm & e & LK & T & EL). pose proof (HL mm e LK T) as Q. rewrite EL, PB in Q by (cbn; tauto). rewrite Q, G3. reflexivity.
    + destruct (default_int 193 ltac:(cbn; tauto)) as (mm & e & LK & T & EL). pose proof (HL mm e LK T) as Q. rewrite EL, PB in Q by (cbn; tauto). rewrite Q, G4. reflexivity.
    + destruct (default_int 5 ltac:(cbn; tauto)) as (mm & e & LK & T & EL). pose proof (HL mm e LK T) as Q. rewrite EL, PB in Q by (cbn; tauto). rewrite Q, G1. reflexivity.
    + destruct (default_int 37 ltac:(cbn; tauto)) as (mm & e & LK & T & EL). pose proof (HL mm e LK T) as Q. rewrite EL, PB in Q by (cbn; tauto). rewrite Q, G2. reflexivity.
    + intros kk K. rewrite (HS' kk K). unfold smp. rewrite dec_enc. apply of_Z_single.
      assert (i * ns <= 1073741824 * 32767) by (apply Z.mul_le_mono_nonneg; lia). assert (0 <= i * ns) by (apply Z.mul_nonneg_nonneg; lia). change (2 ^ 64) with 18446744073709551616. lia.
Qed.

Lemma made_c maxSize nt ns inc kk0 : makeable maxSize nt ns inc kk0 ->
  forall p h f0 maxSize' sizes', (0 < p)%nat -> file_bytes f0 -> 3600 <= maxSize' ->
  forall (sizes : nat -> list Z), (forall x, In x h -> (fst x < p)%nat) ->
  (forall r, (r < p)%nat -> make_file_c (sizes r) nt ns inc (Z.of_nat p) (Z.of_nat r) = Some (rank_ops h r)) ->
  exists f' rd, write_file maxSize p h f0 = Some f' /\ fsize f' = 3600 + nt * (240 + 4 * ns) /\
  open_file maxSize' sizes' f' = Some rd /\ r_ns rd = ns /\ r_nt rd = nt /\
  r_inc rd = dmul incFactor (d_of_Z (s16 kk0)) /\
  firstn 10 (r_text rd) = create_text /\
  (forall i, 0 <= i < nt -> created_trace_c f' ns i).
Proof.
  intros CR p h f0 maxSize' sizes' P FB0 M' sizes RK RUN. pose proof CR as [NT NS DN KR (M1 & M2)].
  assert (N64 : in_u64 nt) by (unfold in_u64, two64; lia).
  assert (F : fits nt ns).
  { assert (nt * (240 + 4 * ns) <= 1073741824 * 131308) by (apply Z.mul_le_mono_nonneg; lia). unfold fits. repeat split; try lia; unfold two64; lia. }
  set (wr := fun r => skipn 4 (rank_ops h r)).
  assert (WS : forall r, (r < p)%nat -> exists off lnt prm, block_decomposition nt (Z.of_nat p) (Z.of_nat r) = Some (mkPiece off lnt) /\ 0 <= off /\ 0 <= lnt /\ off + lnt <= nt /\
     rank_ops h r = create_head nt ns inc ++ wr r /\ wr r = [WTrace (sizes r) (Range off lnt) (Some (create_samples off ns)) (Some prm) 0] /\
     wf_param prm /\ p_rule prm = default_rule /\ p_sz prm = lnt /\ (forall j g, 0 <= j < lnt -> field_of_c (off + j) g -> holds prm j (plain_header g))).
  { intros r R. destruct (make_calls_c _ _ _ _ _ CR (sizes r) (Z.of_nat p) (Z.of_nat r) ltac:(lia)) as (off & lnt & prm & Q1 & Q2 & Q3 & Q4 & Q5 & Q6).
    rewrite (RUN r R) in Q5. injection Q5 as Q5. exists off, lnt, prm. unfold wr. rewrite Q5. repeat (split; [assumption || reflexivity|]). exact Q6. }
  destruct (create_announced nt ns inc NS DN) as (L1 & L2 & L3 & L4 & L5).
  (* the header every trace should get *)
  assert (GF : exists G : Z -> Z -> Z, forall i, 0 <= i < nt -> field_of_c i (G i)).
  { destruct (fields_exist_c 0 nt ltac:(lia) ltac:(unfold lim; lia)) as (G & HG). exists G. intros i I. apply (HG i I). }
  destruct GF as (G & HG).
  set (smp := fun i k => enc_f (f_of_Z (i * ns + k))). set (hdr := fun i => plain_header (G i)).
  assert (GW : forall r o, (r < p)%nat -> In o (wr r) -> good_write nt ns o /\ call_pieces smp hdr ns default_rule o).
  { intros r o R I. destruct (WS r R) as (off & lnt & prm & _ & O & N & L & _ & E & W & RL & SZ & H). rewrite E in I. destruct I as [<-|[]].
    assert (HH : forall j, 0 <= j < lnt -> holds prm j (hdr (off + j))) by (intros j J; apply H; [exact J|apply HG; lia]). split.
    - cbn [good_write in_file write_fine tcount]. split; [lia|]. split; [lia|]. split; [intros q Q; injection Q as <-; apply samples_bytes|]. split; [left; discriminate|]. intros q Q. injection Q as <-.
      apply holds_insert; [exact W|lia|lia|]. intros i I. exists (hdr (off + i)). rewrite Z.add_0_r. apply HH. exact I.
    - cbn [call_pieces tcount tpos]. split.
      + intros q Q. injection Q as <-. intros j k J K. apply samples_spec; unfold lim; lia.
      + intros q Q. injection Q as <-. split; [exact W|]. split; [exact RL|]. split; [lia|]. split; [lia|]. intros j J. rewrite Z.add_0_r. apply HH. exact J. }
  destruct (program_life maxSize p h f0 nt ns (create_head nt ns inc) wr P M1 M2 F FB0 RK) as ((f' & W) & TI); try assumption.
  { intros r R. destruct (WS r R) as (off & lnt & prm & _ & _ & _ & _ & E & _). exact E. }
  { intros o [<-|[<-|[<-|[<-|[]]]]] Q; exact Q. }
  { intros n [Q|[Q|[Q|[Q|[]]]]]; try discriminate. injection Q as <-. lia. }
  { unfold header. rewrite L4, KR. cbn [obind]. eauto. }
  { intros r o R I. apply (GW r o R I). }
  { intros r R. destruct (WS r R) as (off & lnt & prm & _ & _ & _ & _ & _ & E & _). rewrite E. discriminate. }
  destruct (C40_header_round_trip_partial _ _ _ _ _ _ _ maxSize' sizes' W M') as (rd & O & Q1 & Q2 & Q3 & Q4 & _). pose proof (life_inc _ _ _ _ _ _ _ _ _ _ W M' O) as Q5.
  destruct (life _ _ _ _ _ _ _ W) as (f1 & hd & k & _ & _ & _ & _ & AL & _ & _ & SZ & _).
  assert (WW : forall r o, (r < p)%nat -> In o (wr r) -> writes o) by (intros r o R I; destruct (GW r o R I) as (Q & _); destruct o; try contradiction; exact Logic.I).
  assert (AN : asked_by_all h p = nt).
  { apply Z.le_antisymm; [exact AL|]. unfold asked_by_all. etransitivity; [|apply (zmax_in _ (asked (rank_ops h 0)))].
    - destruct (WS 0%nat P) as (off & lnt & prm & _ & _ & _ & _ & E & _). unfold asked, announced. rewrite E, fold_left_app. cbn [create_head fold_left]. rewrite announced_writes; [lia|]. intros o I. apply (WW 0%nat o P I).
    - apply in_map_iff. exists 0%nat. split; [reflexivity|]. apply in_seq. lia. }
  destruct (TI 0%nat P) as (TX & TN). rewrite L4 in TN. rewrite L5 in TX.
  exists f', rd. split; [apply W|]. split; [rewrite SZ, AN; reflexivity|]. split; [exact O|]. split; [exact Q1|]. split; [congruence|]. split; [|split].
  - apply Q5. rewrite TN. exact KR.
  - rewrite Q4, TX. vm_compute. reflexivity.
  - clear O Q1 Q2 Q3 Q4 Q5 TX TN L1 L2 L3 L4 L5 TI SZ AL. intros i I. destruct (block_decomposition_shares nt (Z.of_nat p) N64 ltac:(lia)) as (_ & SH & _). destruct (SH i I) as (r0 & (R0 & pc & EP & IP) & _). unfold in_piece in IP.
    assert (RP : (Z.to_nat r0 < p)%nat) by lia. destruct (WS (Z.to_nat r0) RP) as (off & lnt & prm & E & _ & _ & _ & E1 & E2 & _). rewrite Z2Nat.id in E by lia. rewrite EP in E. injection E as ->. cbn [global_offset local_size] in IP.
    assert (HC : forall x, In x h -> call_pieces smp hdr ns default_rule (snd x)).
    { intros (r1, o1) X. pose proof (RK _ X) as R1. cbn [fst snd] in *. pose proof (in_rank_ops _ _ _ X) as Y. destruct (WS r1 R1) as (off1 & lnt1 & prm1 & _ & _ & _ & _ & E1' & _). rewrite E1' in Y. apply in_app_or in Y. destruct Y as [Y|Y].
      - destruct Y as [<-|[<-|[<-|[<-|[]]]]]; exact Logic.I.
      - apply (GW r1 o1 R1 Y). }
    assert (IH : forall o, In o (wr (Z.to_nat r0)) -> In (Z.to_nat r0, o) h).
    { intros o OI. assert (IO : In o (rank_ops h (Z.to_nat r0))) by (rewrite E1; apply in_or_app; right; exact OI). unfold rank_ops in IO. apply in_map_iff in IO.
      destruct IO as ((r1 & o1) & EO1 & FI1). apply filter_In in FI1. destruct FI1 as (A & B). cbn [fst snd] in *. apply Nat.eqb_eq in B. subst. exact A. }
    rewrite E2 in IH. pose proof (IH _ (or_introl eq_refl)) as I1.
    pose proof (history_pieces_samples maxSize p h f0 f' nt ns smp hdr default_rule W HC i) as HS.
    destruct (history_pieces_headers maxSize p h f0 f' nt ns smp hdr default_rule W default_usable ltac:(vm_compute; reflexivity) HC ltac:(intros; apply plain_bytes) i) as (HL & _ & HF).
    { exists (Z.to_nat r0), (sizes (Z.to_nat r0)), (Range off lnt), (Some (create_samples off ns)), prm, 0, (i - off). split; [exact I1|]. cbn [tcount tpos]. lia. }
    assert (HS' : forall k, 0 <= k < ns -> disk_sample f' ns i k = smp i k).
    { apply HS. exists (Z.to_nat r0), (sizes (Z.to_nat r0)), (Range off lnt), (create_samples off ns), (Some prm), 0, (i - off). split; [exact I1|]. cbn [tcount tpos]. lia. }
    clear HS. destruct (HG i I) as (G0 & G1 & G2 & G3 & G4 & G5).
    assert (PB : forall l, In l plain_fields -> int32_at (hdr i) l = G i l).
    { intros l L. rewrite int32_rd by (intros; apply plain_bytes). apply plain_rd32; [exact L|apply G0]. }
    assert (P71 : int16_at (hdr i) 71 = 1) by reflexivity.
    constructor.
    + intros l c L. assert (LC : In l copied_coordinates /\ In l plain_fields) by (destruct L as [L|[L|[L|[L|[L|[L|[]]]]]]]; injection L as <- <-; cbn; tauto). destruct LC as (LC & LP).
      destruct (default_coordinate l LC) as (mm & e & LK & T & EL & SC). destruct (HF mm e LK T) as (_ & CO); [rewrite SC, P71; right; left; reflexivity|]. rewrite EL, SC in CO. rewrite CO.
      unfold coordinate. rewrite P71, (PB l LP), (G5 l c L). unfold factor. cbn [Z.eqb Z.ltb Z.compare Pos.compare Pos.compare_cont]. lra.
    + destruct (default_int 189 ltac:(cbn; tauto)) as (mm & e & LK & T & EL). pose proof (HL mm e LK T) as Q. rewrite EL, PB in Q by (cbn; tauto). rewrite Q, G3. reflexivity.
    + destruct (default_int 193 ltac:(cbn; tauto)) as (mm & e & LK & T & EL). pose proof (HL mm e LK T) as Q. rewrite EL, PB in Q by (cbn; tauto). rewrite Q, G4. reflexivity.
    + destruct (default_int 5 ltac:(cbn; tauto)) as (mm & e & LK & T & EL). pose proof (HL mm e LK T) as Q. rewrite EL, PB in Q by (cbn; tauto). rewrite Q, G1. reflexivity.
    + destruct (default_int 37 ltac:(cbn; tauto)) as (mm & e & LK & T & EL). pose proof (HL mm e LK T) as Q. rewrite EL, PB in Q by (cbn; tauto). rewrite Q, G2. reflexivity.
    + intros kk K. rewrite (HS' kk K). unfold smp. rewrite dec_enc. apply of_Z_single.
      assert (i * ns <= 1073741824 * 32767) by (apply Z.mul_le_mono_nonneg; lia). assert (0 <= i * ns) by (apply Z.mul_nonneg_nonneg; lia). change (2 ^ 64) with 18446744073709551616. lia.
Qed.
