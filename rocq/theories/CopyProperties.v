(** C101 and C102: copying a file with creadwrite. *)
From Coq Require Import Reals Lra.
From Flocq Require Import Core IEEE754.BinarySingleNaN.
From Verif Require Import Base DecompModel DecompSpec DecompProofs NumEncModel NumEncSpec NumEncProofs CharEncModel CharEncProofs LayoutModel LayoutProofs DataIOModel DataIOProofs
  RuleModel RuleProofs DoubleModel ParamModel ParamProofs HeaderProofs ScalarProofs FileSpec FileModel FileProofs WriteSpec WriteProofs ParamProperties ReadProofs OpenProofs FileProperties TraceProperties.
From Verif Require Import CopySpec CopyProofs ExampleModel ExampleProofs.
Import ListNotations.
Open Scope Z_scope.

(** A text without inner zero characters, with more ASCII than EBCDIC letters. *)
Definition plain_text (t : list Z) : Prop :=
  (exists a k, t = a ++ repeat 0 k /\ ~ In 0 a) /\ (count_if is_printable_EBCDIC t < count_if is_printable_ASCII t)%nat.
(** An input the copier can treat: a file of bytes with room for the two headers, at most
    32767 samples and at least one trace, IEEE samples, a positive sample interval; an
    I/O block of at least two traces; memory for one trace. *)
Record copyable (maxSize memmax : Z) (sizes0 : list Z) (f : file) (rd : reader) : Prop := mkCopyable {
  cy_open : open_file maxSize sizes0 f = Some rd;
  cy_bytes : file_bytes f;
  cy_size : 3600 <= fsize f < two64;
  cy_max : 3600 <= maxSize /\ 2 * (240 + 4 * r_ns rd) <= maxSize;
  cy_ns : r_ns rd <= 32767;
  cy_nt : 0 < r_nt rd;
  cy_format : int16_at (fbyte f) 3225 <> 1;
  cy_interval : 1 <= int16_at (fbyte f) 3217;
  cy_memory : Z.max 240 (4 * r_ns rd) <= memmax < two64 }.

Lemma local_announced rd : 0 <= r_ns rd <= 32767 -> 0 <= r_nt rd -> disnormal (r_inc rd) = true ->
  let w := local (announcements rd) w_init in
  w_err w = false /\ w_nsSet w = true /\ w_ns w = r_ns rd /\ w_inc w = r_inc rd /\ w_text w = (match c_string (r_text rd) with [] => [] | s => resize text_size s end).
Proof.
  intros NS NT DN. unfold announcements. cbn [local fold_left]. set (w1 := wlocal (WText _) _).
  assert (W1 : w_ns w1 = 0 /\ w_nsSet w1 = false /\ w_err w1 = false /\ w_text w1 = (match c_string (r_text rd) with [] => [] | s => resize text_size s end)).
  { unfold w1. cbn [wlocal]. destruct (c_string (r_text rd)) as [|c s]; cbn [w_init text_eqb w_ns w_nsSet w_err w_text]; repeat split. }
  destruct W1 as (A1 & A2 & A3 & A4). cbn [wlocal]. replace (32767 <? r_ns rd) with false by lia. rewrite DN. cbn [w_err w_nsSet w_ns w_inc w_text]. auto.
Qed.
Lemma announced_writes ws : (forall o, In o ws -> writes o) -> forall a, fold_left (fun a o => match o with WNt n => n | _ => a end) ws a = a.
Proof. induction ws as [|o ws IH]; intros H a; [reflexivity|]. cbn [fold_left]. pose proof (H o (or_introl eq_refl)) as W. destruct o; try contradiction. apply IH. intros; apply H; right; assumption. Qed.
Lemma announced_nt rd ws : (forall o, In o ws -> writes o) -> announced (announcements rd ++ ws) = r_nt rd.
Proof. intros H. unfold announced. rewrite fold_left_app. cbn [announcements fold_left]. apply announced_writes. exact H. Qed.
Lemma default_int l : In l copied_ints -> exists m e, lookup m (translate default_rule) = Some e /\ e_type e = MLong /\ e_loc e = l.
Proof.
  intros [<-|[<-|[<-|[<-|[]]]]]; [exists 5|exists 14|exists 26|exists 27].
  all: eexists; split; [vm_compute; reflexivity|split; reflexivity].
Qed.
Lemma default_coordinate l : In l copied_coordinates -> exists m e, lookup m (translate default_rule) = Some e /\ e_type e = MFloat /\ e_loc e = l /\ e_scal e = 71.
Proof.
  intros [<-|[<-|[<-|[<-|[<-|[<-|[]]]]]]]; [exists 20|exists 21|exists 22|exists 23|exists 24|exists 25].
  all: eexists; split; [vm_compute; reflexivity|split; [reflexivity|split; reflexivity]].
Qed.

(** C101: every rank can run, and all make the same number of calls. *)
Theorem C101_creadwrite_runs :
  forall maxSize memmax sizes0 f rd, copyable maxSize memmax sizes0 f rd ->
  forall p, (0 < p)%nat -> forall (sizes : nat -> Z -> Z -> list Z) (m0 : nat -> Z -> Z -> mem), (forall r x y, mem_bytes (m0 r x y)) ->
  exists n, forall r, (r < p)%nat -> exists ops,
  creadwrite maxSize (sizes r) (m0 r) rd f memmax None (Z.of_nat p) (Z.of_nat r) = Some ops /\ length ops = n.
Proof.
  intros maxSize memmax sizes0 f rd [CO CB CS (CM & CM2) CN CT CF CI CMM] p P sizes m0 MB.
  destruct (open_inv _ _ _ _ CM CB CS CO) as (E1 & E2 & E3 & E4 & E5 & _). destruct (open_fits _ _ _ _ CM CB CS CO CN) as (F & HT).
  exists (4 + Z.to_nat (nblk (rw_biggest (r_nt rd) (Z.of_nat p)) (rw_tcnt memmax (r_ns rd))))%nat. intros r R.
  destruct (rank_calls maxSize (sizes r) (m0 r) rd f memmax (Z.of_nat p) (Z.of_nat r) CM2 F HT CB ltac:(congruence) (MB r) ltac:(lia) CMM) as (ws & E & LN & _).
  exists (announcements rd ++ ws). split; [exact E|]. rewrite app_length, <- LN, Nat2Z.id. reflexivity.
Qed.
Print Assumptions C101_creadwrite_runs.

(** C101: whatever the number of processes, the memory limit and the order in which the
    calls of the processes take effect, the output file has the traces of the input. *)
Theorem C101_creadwrite_copies :
  forall maxSize memmax sizes0 f rd, copyable maxSize memmax sizes0 f rd ->
  forall p h f0 maxSize' sizes', (0 < p)%nat -> file_bytes f0 -> 3600 <= maxSize' ->
  forall (sizes : nat -> Z -> Z -> list Z) (m0 : nat -> Z -> Z -> mem), (forall r x y, mem_bytes (m0 r x y)) ->
  (forall x, In x h -> (fst x < p)%nat) ->
  (forall r, (r < p)%nat -> creadwrite maxSize (sizes r) (m0 r) rd f memmax None (Z.of_nat p) (Z.of_nat r) = Some (rank_ops h r)) ->
  exists f' rd', write_file maxSize p h f0 = Some f' /\ fsize f' = 3600 + r_nt rd * (240 + 4 * r_ns rd) /\
  open_file maxSize' sizes' f' = Some rd' /\ r_ns rd' = r_ns rd /\ r_nt rd' = r_nt rd /\ r_inc rd' = r_inc rd /\
  (plain_text (r_text rd) -> r_text rd' = r_text rd) /\
  (forall i, 0 <= i < r_nt rd -> trace_copied f i f' i (r_ns rd)).
Proof.
  intros maxSize memmax sizes0 f rd [CO CB CS (CM & CM2) CN CT CF CI CMM] p h f0 maxSize' sizes' P FB0 M' sizes m0 MB RK RUN.
  destruct (open_inv _ _ _ _ CM CB CS CO) as (E1 & E2 & E3 & E4 & E5 & _). destruct (open_fits _ _ _ _ CM CB CS CO CN) as (F & HT). pose proof F as (N0 & NT0 & S64 & W64).
  set (ns := r_ns rd) in *. set (nt := r_nt rd) in *. set (us := int16_at (fbyte f) 3217) in *.
  assert (US : us <= 32767). { unfold us. rewrite int16_rd by apply CB. pose proof (rd16_range (fbyte f) (3217 - 1)) as Q. unfold in_s16 in Q. lia. }
  assert (N64 : in_u64 nt). { assert (nt * 240 <= nt * (240 + 4 * ns)) by (apply Z.mul_le_mono_nonneg_l; lia). unfold in_u64; lia. }
  assert (WS : forall r, (r < p)%nat -> exists ws, rank_ops h r = announcements rd ++ ws /\
     Z.of_nat (length ws) = nblk (rw_biggest nt (Z.of_nat p)) (rw_tcnt memmax ns) /\
     (forall o, In o ws -> exists b, block_of (sizes r) nt ns f b o) /\
     (forall x, 0 <= x < local_size (rw_piece nt (Z.of_nat p) (Z.of_nat r)) -> exists b o, In o ws /\ block_of (sizes r) nt ns f b o /\ fst b <= global_offset (rw_piece nt (Z.of_nat p) (Z.of_nat r)) + x < fst b + snd b) /\
     0 < rw_tcnt memmax ns).
  { intros r R. destruct (rank_calls maxSize (sizes r) (m0 r) rd f memmax (Z.of_nat p) (Z.of_nat r) CM2 F HT CB ltac:(congruence) (MB r) ltac:(lia) CMM) as (ws & E & Q).
    exists ws. split; [|exact Q]. rewrite (RUN r R) in E. injection E as E. exact E. }
  set (wr := fun r => skipn 4 (rank_ops h r)).
  assert (RO : forall r, (r < p)%nat -> rank_ops h r = announcements rd ++ wr r).
  { intros r R. destruct (WS r R) as (ws & E & _). unfold wr. rewrite E. reflexivity. }
  assert (WS' : forall r, (r < p)%nat -> wr r <> [] /\ (forall o, In o (wr r) -> exists b, block_of (sizes r) nt ns f b o) /\
     (forall x, 0 <= x < local_size (rw_piece nt (Z.of_nat p) (Z.of_nat r)) -> exists b o, In o (wr r) /\ block_of (sizes r) nt ns f b o /\ fst b <= global_offset (rw_piece nt (Z.of_nat p) (Z.of_nat r)) + x < fst b + snd b)).
  { intros r R. destruct (WS r R) as (ws & E & LN & A & B & T0). assert (EW : wr r = ws) by (unfold wr; rewrite E; reflexivity). rewrite EW. split; [|split; assumption].
    intros ->. cbn [length] in LN. destruct (block_decomposition_shares nt (Z.of_nat p) N64 ltac:(lia)) as (_ & SH & _). destruct (SH 0 ltac:(lia)) as (r0 & (R0 & pc & EP & IP) & _).
    destruct (biggest_spec nt (Z.of_nat p) N64 ltac:(lia)) as (BG & _). specialize (BG r0 R0). unfold rw_piece in BG. rewrite EP in BG. unfold in_piece in IP.
    pose proof (nblk_mono 1 (rw_biggest nt (Z.of_nat p)) _ T0 ltac:(lia)) as NB. rewrite (nblk_1 1) in NB by lia. cbn in LN. lia. }
  destruct (local_announced rd ltac:(fold ns; lia) NT0 ltac:(rewrite E2; apply inc_normal; lia)) as (L1 & L2 & L3 & L4 & L5).
  assert (IV : fin (r_inc rd) /\ (Rabs (val (r_inc rd) - IZR us / 1000000) <= / 4000000)%R).
  { rewrite E2. destruct (inc_value us ltac:(lia)) as (FI & BI). split; [exact FI|]. eapply Rle_trans; [exact BI|].
    assert (K1 : (IZR us <= 32767)%R) by (apply IZR_le; lia). assert (K0 : (0 <= IZR us)%R) by (apply (IZR_le 0); lia).
    assert (S : (bpow radix2 (-51) <= bpow radix2 (-20))%R) by (apply bpow_le; lia). assert (U : (bpow radix2 (-20) = / 1048576)%R) by (cbn; lra). pose proof (bpow_gt_0 radix2 (-51)).
    eapply Rle_trans; [apply Rmult_le_compat_l; [lra|exact S]|]. rewrite U. lra. }
  destruct IV as (FI & BI).
  destruct (program_life maxSize p h f0 nt ns (announcements rd) wr P CM CM2 F FB0 RK RO) as ((f' & W) & TI); try assumption.
  { intros o [<-|[<-|[<-|[<-|[]]]]] Q; exact Q. }
  { intros n [Q|[Q|[Q|[Q|[]]]]]; try discriminate. injection Q as <-. fold nt. lia. }
  { unfold header. rewrite L4, (inc_round (r_inc rd) us FI ltac:(lia) BI). cbn [obind]. eauto. }
  { intros r o R I. destruct (WS' r R) as (_ & A & _). destruct (A o I) as (b & B). apply B. }
  { intros r R. apply WS'. exact R. }
  destruct (C40_header_round_trip_partial _ _ _ _ _ _ _ maxSize' sizes' W M') as (rd' & O & Q1 & Q2 & Q3 & Q4 & Q5).
  destruct (life _ _ _ _ _ _ _ W) as (f1 & hd & k & _ & _ & _ & _ & AL & _ & _ & SZ & _).
  assert (AN : asked_by_all h p = nt).
  { apply Z.le_antisymm; [exact AL|]. unfold asked_by_all. etransitivity; [|apply (zmax_in _ (asked (rank_ops h 0)))].
    - unfold asked. rewrite (RO 0%nat P), announced_nt; [fold nt; lia|]. intros o I. destruct (WS' 0%nat P) as (_ & A & _). destruct (A o I) as (b & (m & prm & ->) & _). exact Logic.I.
    - apply in_map_iff. exists 0%nat. split; [reflexivity|]. apply in_seq. lia. }
  destruct (TI 0%nat P) as (TX & TN). rewrite L4 in TN. rewrite L5 in TX.
  exists f', rd'. split; [apply W|]. split; [rewrite SZ, AN; reflexivity|]. split; [exact O|]. split; [exact Q1|]. split; [congruence|]. split; [|split].
  - assert (X : r_inc rd' = w_inc (rank_state h 0)). { destruct (Q5 us ltac:(lia)) as (_ & _ & Q6); [rewrite TN; exact FI|rewrite TN; exact BI|]. apply Q6. rewrite TN. exact E2. }
    rewrite X. exact TN.
  - intros ((a & kk & TA & NZ) & CNT). rewrite Q4, TX.
    assert (LT : length (r_text rd) = 3200%nat).
    { rewrite E4. unfold read_text. assert (LZ : length (map (fbyte f) (zr 3200)) = 3200%nat) by (rewrite map_length; reflexivity).
      assert (LF : length (firstn text_size (map (fbyte f) (zr 3200))) = 3200%nat) by (rewrite firstn_length, LZ; reflexivity).
      destruct (Nat.ltb _ _); [exact LF|]. rewrite map_length. exact LF. }
    assert (CA : c_string (r_text rd) = a) by (rewrite TA; apply c_string_plain; exact NZ).
    assert (LA : (length a <= 3200)%nat) by (rewrite TA, app_length in LT; lia).
    assert (KK : repeat 0 kk = repeat 0 (3200 - length a)) by (f_equal; rewrite TA, app_length, repeat_length in LT; lia).
    assert (WT : forall t, t = (match c_string (r_text rd) with [] => [] | s => resize text_size s end) -> t ++ repeat 0 (3200 - length t) = r_text rd).
    { intros t ->. rewrite CA. destruct a as [|c a].
      - cbn [app length]. rewrite TA, KK. reflexivity.
      - rewrite resize_short by exact LA. rewrite app_length, repeat_length. change text_size with 3200%nat. replace (3200 - (length (c :: a) + (3200 - length (c :: a))))%nat with 0%nat by lia.
        cbn [repeat]. rewrite app_nil_r, TA, KK. reflexivity. }
    rewrite (WT _ eq_refl). rewrite <- (app_nil_r (r_text rd)) at 1.
    pose proof (text_roundtrip (r_text rd) [] ltac:(rewrite LT; reflexivity) CNT) as RT. cbn [stored_text] in RT. rewrite resize_short in RT by (rewrite LT; reflexivity).
    rewrite LT in RT. change (text_size - 3200)%nat with 0%nat in RT. cbn [repeat] in RT. rewrite !app_nil_r in RT. rewrite app_nil_r. exact RT.
  - intros i I. destruct (block_decomposition_shares nt (Z.of_nat p) N64 ltac:(lia)) as (_ & SH & _). destruct (SH i I) as (r0 & (R0 & pc & EP & IP) & _).
    assert (EQ : rw_piece nt (Z.of_nat p) r0 = pc) by (unfold rw_piece; rewrite EP; reflexivity). unfold in_piece in IP.
    destruct (WS' (Z.to_nat r0) ltac:(lia)) as (_ & _ & CV). rewrite Z2Nat.id in CV by lia. rewrite EQ in CV.
    destruct (CV (i - global_offset pc) ltac:(lia)) as (b & o & OI & ((m & prm & EO) & _) & BX).
    assert (IH : In (Z.to_nat r0, o) h).
    { assert (IO : In o (rank_ops h (Z.to_nat r0))) by (rewrite (RO (Z.to_nat r0) ltac:(lia)); apply in_or_app; right; exact OI). unfold rank_ops in IO. apply in_map_iff in IO.
      destruct IO as ((r1 & o1) & EO1 & FI1). apply filter_In in FI1. destruct FI1 as (A & B). cbn [fst snd] in *. apply Nat.eqb_eq in B. subst. exact A. }
    destruct default_usable as (FR & FO).
    assert (HC : forall x, In x h -> call_copies (fun i => (f, i)) ns default_rule (snd x)).
    { intros (r1, o1) X. pose proof (RK _ X) as R1. cbn [fst snd] in *. pose proof (in_rank_ops _ _ _ X) as Y. rewrite (RO r1 R1) in Y. apply in_app_or in Y. destruct Y as [Y|Y].
      - destruct Y as [<-|[<-|[<-|[<-|[]]]]]; exact Logic.I.
      - destruct (WS' r1 R1) as (_ & A & _). destruct (A o1 Y) as (b1 & _ & _ & C1). exact C1. }
    pose proof (history_copies maxSize p h f0 f' nt ns (fun i => (f, i)) default_rule W (conj FR FO) ltac:(vm_compute; reflexivity) HC ltac:(intros; exact CB) i) as Q.
    cbv beta iota in Q. destruct Q as (QS & QL & _ & QF).
    { exists (Z.to_nat r0), (sizes (Z.to_nat r0) (fst b) (snd b)), (Range (fst b) (snd b)), (Some m), (Some prm), 0, (i - fst b). split; [rewrite <- EO; exact IH|]. cbn [tcount tpos]. lia. }
    constructor.
    + exact QS.
    + intros l L. destruct (default_int l L) as (mm & e & LK & T & <-). apply (QL mm e LK T).
    + intros PS l L. destruct (default_coordinate l L) as (mm & e & LK & T & <- & SC). rewrite <- SC. apply (QF mm e LK T). rewrite SC. exact PS.
Qed.
Print Assumptions C101_creadwrite_copies.

(** Three traces of two samples, coordinate scale factor -100, a text of 67 and 49 ("C1"). *)
Definition source_byte (interval q : Z) : Z :=
  if q <? 3600 then (if q <? 2 then nth (Z.to_nat q) [67; 49] 0 else if q =? 3217 then interval else if q =? 3221 then 2 else if q =? 3225 then 5 else 0)
  else let x := (q - 3600) mod 248 in if x =? 70 then 255 else if x =? 71 then 156 else (q * 7 + 3) mod 256.
Definition source_file (interval : Z) : file := mkFile 4344 (source_byte interval).
Lemma source_bytes k : is_byte k -> file_bytes (source_file k).
Proof.
  intros K q. unfold source_file, source_byte. cbn [fbyte]. cbv zeta. unfold is_byte in *.
  destruct (q <? 3600); [|destruct (_ =? 70); [lia|destruct (_ =? 71); [lia|apply Z.mod_pos_bound; lia]]].
  destruct (q <? 2).
  - destruct (Z.to_nat q) as [|[|[|n]]]; cbn; lia.
  - destruct (q =? 3217); [lia|]. destruct (q =? 3221); [lia|]. destruct (q =? 3225); lia.
Qed.
Lemma source_interval k : is_byte k -> int16_at (fbyte (source_file k)) 3217 = k.
Proof.
  intros K. assert (E : int16_at (fbyte (source_file k)) 3217 = if 256 * 0 + k <? 32768 then 256 * 0 + k else 256 * 0 + k - 65536) by reflexivity.
  rewrite E. unfold is_byte in K. destruct (Z.ltb_spec (256 * 0 + k) 32768); lia.
Qed.
Lemma source_open k : is_byte k -> exists rd, open_file 4000 [] (source_file k) = Some rd /\ r_ns rd = 2 /\ r_nt rd = 3 /\ r_format rd = 5 /\
  r_inc rd = dmul incFactor (d_of_Z k) /\ r_text rd = read_text (map (source_byte k) (zr 3200)).
Proof.
  intros K. assert (SZ : 3600 <= fsize (source_file k) < two64) by (cbn [source_file fsize]; unfold two64; lia).
  destruct (open_total 4000 [] (source_file k) ltac:(lia) (source_bytes k K) ltac:(lia)) as (rd & E).
  { assert (Q : int16_at (fbyte (source_file k)) 3221 = 2) by reflexivity. lia. }
  exists rd. split; [exact E|].
  destruct (open_inv 4000 [] (source_file k) rd ltac:(lia) (source_bytes k K) SZ E) as (A1 & A2 & A3 & A4 & A5 & _). clear E.
  assert (N : r_ns rd = 2) by (rewrite A1; reflexivity). split; [exact N|]. split; [rewrite A5, N; reflexivity|]. split; [rewrite A3; reflexivity|]. split; [|exact A4].
  rewrite A2, (source_interval k K). reflexivity.
Qed.
Example C101_nonvacuous : exists rd, copyable 4000 500 [] (source_file 250) rd /\ r_nt rd = 3 /\ r_ns rd = 2 /\ plain_text (r_text rd) /\
  plain_scale (int16_at (disk_header (source_file 250) 2 1) 71) /\ int32_at (disk_header (source_file 250) 2 1) 189 <> int32_at (disk_header (source_file 250) 2 2) 189 /\
  disk_sample (source_file 250) 2 1 0 <> disk_sample (source_file 250) 2 2 0.
Proof.
  destruct (source_open 250) as (rd & O & N & T & FM & IV & TX); [unfold is_byte; lia|]. exists rd. split; [|split; [exact T|split; [exact N|split; [|split; [|split]]]]].
  - constructor; try assumption; rewrite ?N, ?T; try lia; try (apply source_bytes; unfold is_byte; lia).
    + cbn [source_file fsize]. unfold two64. lia.
    + vm_compute. discriminate.
    + vm_compute. discriminate.
    + unfold two64. lia.
  - rewrite TX. split; [|vm_compute; lia]. exists [67; 49], 3198%nat. split; [vm_compute; reflexivity|]. intros [Q|[Q|[]]]; discriminate.
  - right. right. right. left. vm_compute. reflexivity.
  - vm_compute. discriminate.
  - vm_compute. discriminate.
Qed.
