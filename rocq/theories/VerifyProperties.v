(** C115: the program that verifies an order, alone and after the program that sorts. *)
From Coq Require Import Reals Lra Permutation Sorted.
From Flocq Require Import Core IEEE754.BinarySingleNaN.
From Verif Require Import Base DecompModel DecompSpec DecompProofs NumEncModel NumEncSpec NumEncProofs CharEncModel CharEncProofs LayoutModel LayoutProofs DataIOModel DataIOProofs
  RuleModel RuleProofs DoubleModel ParamModel ParamProofs HeaderProofs ScalarProofs FileSpec FileModel FileProofs WriteSpec WriteProofs RuleProperties ParamProperties ReadProofs OpenProofs FileProperties TraceProperties.
From Verif Require Import SortSpec SortModel SortProofs CompProofs SortProperties FlowModel FlowProofs FlowProperties CopySpec CopyProofs CopyProperties ExampleModel ExampleProofs SetFileModel SetFileSpec SetFileProofs SetOutProofs SetSortModel SetSortSpec SetSortProofs VerifyModel VerifyProofs SixteenthProofs.
Import ListNotations.
Open Scope Z_scope.

Lemma input_readable maxSize ns inc rd f : 3600 <= maxSize -> 2 * (240 + 4 * ns) <= maxSize -> 0 <= ns <= 32767 -> set_input maxSize ns inc (rd, f) -> readable maxSize rd f.
Proof.
  intros M1 M2 NS [(sz0 & OP) FB SZ NSE INC FM IV]. cbn [fst snd] in *. destruct (open_inv _ _ _ _ M1 FB SZ OP) as (_ & _ & RF & _).
  destruct (open_fits _ _ _ _ M1 FB SZ OP ltac:(rewrite NSE; clear - NS; lia)) as (F & HT). constructor; try assumption; [rewrite NSE; exact M2|congruence|intros; apply FB|intros; apply FB].
Qed.
Lemma readable_finite maxSize rd f a : readable maxSize rd f -> 0 <= a < r_nt rd -> finite_geo (trace_geo rd f a).
Proof.
  intros [M F HT FM HB SB] A. unfold finite_geo, trace_geo, header_geo. cbn [g_sx g_sy g_rx g_ry]. set (h := disk_header f (r_ns rd) a).
  assert (S : in_s16 (int16_at h 71)) by (rewrite int16_rd by (apply HB; [exact A|clear; lia]); apply rd16_range).
  assert (I : forall l, 1 <= l <= 237 -> in_s32 (int32_at h l)) by (intros l L; rewrite int32_rd by (intros k K; apply HB; [exact A|clear - L K; lia]); apply rd32_range).
  repeat split; apply coordinate_rn; try exact S; apply I; clear; lia.
Qed.

(** C115: on any file that opens, each rank of any number of processes gives an answer, and
    the answer is Success exactly when every trace of the rank precedes the next trace of
    the rank in the order asked for. *)
Theorem C115_own_traces : forall maxSize ns inc rd f sizes type q r,
  3600 <= maxSize -> 2 * (240 + 4 * ns) <= maxSize -> 0 <= ns <= 32767 -> set_input maxSize ns inc (rd, f) -> 35 <= type <= 43 -> 0 < q -> 0 <= r < q ->
  exists d ans, block_decomposition (r_nt rd) q r = Some d /\ verify_rank maxSize sizes type rd f q r = Some ans /\
  (ans = true <-> forall a, global_offset d <= a -> a + 1 < global_offset d + local_size d ->
     lex (keys type (header_geo (disk_header f ns a) a)) (keys type (header_geo (disk_header f ns (a + 1)) (a + 1)))).
Proof.
  intros maxSize ns inc rd f sizes type q r M1 M2 NS SI T Q R. pose proof (input_readable _ _ _ _ _ M1 M2 NS SI) as RB. pose proof (si_ns _ _ _ _ SI) as NSE. cbn [fst] in NSE.
  pose proof (rb_fits _ _ _ RB) as (N0 & NT & S64 & _).
  assert (NTS : in_u64 (r_nt rd)). { clear - N0 NT S64. unfold in_u64. assert (r_nt rd * 240 <= r_nt rd * (240 + 4 * r_ns rd)) by (apply Z.mul_le_mono_nonneg_l; lia). lia. }
  destruct (rw_piece_eq (r_nt rd) q r NTS R) as (d & D & _ & O & L & B). exists d. destruct (verify_rows maxSize rd f RB sizes type q r d Q R D) as (ans & E & A). exists ans. split; [exact D|]. split; [exact E|].
  rewrite A. unfold trace_geo. rewrite NSE.
  assert (FG : forall a, 0 <= a < r_nt rd -> finite_geo (header_geo (disk_header f ns a) a)) by (intros a AA; rewrite <- NSE; apply (readable_finite maxSize rd f a RB AA)).
  split; intros H a A1 A2; specialize (H a A1 A2); apply (C50_orders_compare_keys type _ _ T); try exact H; apply FG; clear - O L B A1 A2; lia.
Qed.
Print Assumptions C115_own_traces.

(** C115 refuted: with as many processes as traces every file is accepted. *)
Theorem C115_every_file_refuted : forall maxSize ns inc rd f sizes type q r,
  3600 <= maxSize -> 2 * (240 + 4 * ns) <= maxSize -> 0 <= ns <= 32767 -> set_input maxSize ns inc (rd, f) -> 35 <= type <= 43 -> 0 < q -> r_nt rd <= q -> 0 <= r < q ->
  verify_rank maxSize sizes type rd f q r = Some true.
Proof.
  intros maxSize ns inc rd f sizes type q r M1 M2 NS SI T Q NQ R. destruct (C115_own_traces maxSize ns inc rd f sizes type q r M1 M2 NS SI T Q R) as (d & ans & D & E & A).
  rewrite E. f_equal. apply A. clear A E. intros a A1 A2. exfalso.
  pose proof (input_readable _ _ _ _ _ M1 M2 NS SI) as RB. pose proof (rb_fits _ _ _ RB) as (N0 & NT & S64 & _). clear SI RB.
  assert (NTS : in_u64 (r_nt rd)). { unfold in_u64. assert (r_nt rd * 240 <= r_nt rd * (240 + 4 * r_ns rd)) by (apply Z.mul_le_mono_nonneg_l; lia). lia. }
  rewrite block_decomposition_exact in D by (first [exact NTS|lia]). injection D as <-. cbn [global_offset local_size] in *.
  assert (C : r_nt rd / q = 0 \/ (r_nt rd = q)) by (destruct (Z.eq_dec (r_nt rd) q); [right; assumption|left; apply Z.div_small; lia]).
  destruct C as [C|C]; [rewrite C in *; destruct (r <? r_nt rd mod q); lia|].
  rewrite C, Z_mod_same_full in *. rewrite Z_div_same_full in * by lia. destruct (Z.ltb_spec r 0); lia.
Qed.
Print Assumptions C115_every_file_refuted.

(** The coordinates of all traces of a file are multiples of a sixteenth, at a plain scale. *)
Definition fine_coordinates (f : file) (ns nt : Z) : Prop :=
  forall a l, 0 <= a < nt -> In l [73; 77; 81; 85] -> plain_scale (int16_at (disk_header f ns a) 71) /\ exists n, coordinate (disk_header f ns a) l 71 = (IZR n / 16)%R.

(** C115: what the sort program writes is accepted by all ranks of any number of verifying
    processes, when the order is one of lines and stored offsets (41, 43), or all
    coordinates are multiples of a sixteenth, such as whole numbers, halves and quarters.
    Missing: coordinates with other fractions. *)
Theorem C115_sorted_accepted_partial : forall maxSize ns inc key rd f p type srt outmsg sizes0 (sizes : nat -> nat -> nat -> list Z) fuel fuel2 fds,
  3600 <= maxSize -> 2 * (240 + 4 * ns) <= maxSize -> 0 <= ns <= 32767 -> (0 < p)%nat -> 4 * Z.of_nat p <= r_nt rd ->
  set_input maxSize ns inc (rd, f) -> std_sort srt -> 35 <= type <= 43 ->
  type = 41 \/ type = 43 \/ fine_coordinates f ns (r_nt rd) ->
  sort_set fuel fuel2 maxSize sizes0 srt type [(rd, f)] (group_files key [(key, (rd, f))] p) p = Some fds ->
  forall h f0 maxSize' sizes', file_bytes f0 -> 3600 <= maxSize' -> 2 * (240 + 4 * ns) <= maxSize' -> (forall x, In x h -> (fst x < p)%nat) ->
  (forall r, (r < p)%nat -> set_calls maxSize (sizes r) sort_set_rule srt outmsg [(rd, f)] fds p r = Some (rank_ops h r)) ->
  exists f' rd', write_file maxSize p h f0 = Some f' /\ open_file maxSize' sizes' f' = Some rd' /\ r_nt rd' = r_nt rd /\
  forall q r vsizes, 0 < q -> 0 <= r < q -> verify_rank maxSize' vsizes type rd' f' q r = Some true.
Proof.
  intros maxSize ns inc key rd f p type srt outmsg sizes0 sizes fuel fuel2 fds M1 M2 NS P FOUR SI SRT T CASE S h f0 maxSize' sizes' FB0 M1' M2' RK RUN. pose proof SI as [(sz0 & OP) FB SZ NSE INC FM IV]. cbn [fst snd] in OP, FB, SZ, NSE, INC, FM, IV.
  destruct (open_fits _ _ _ _ M1 FB SZ OP ltac:(rewrite NSE; clear - NS; lia)) as (F & HT). destruct (open_inv _ _ _ _ M1 FB SZ OP) as (_ & _ & RF & _). rewrite NSE in F, HT. set (nt := r_nt rd) in *.
  assert (FM' : r_format rd <> 1) by congruence. clear OP SZ RF.
  destruct (sort_result maxSize ns nt rd f M2 NSE eq_refl F HT FB FM' p P key FOUR fuel fuel2 sizes0 srt type fds SRT T S) as (perm & PM & SS & PL). clear S.
  set (g := [(rd, f)]). assert (G0 : g <> []) by discriminate. assert (GI : forall x, In x g -> set_input maxSize ns inc x) by (intros x [<-|[]]; exact SI).
  change [nt] with (map (fun x : reader * file => r_nt (fst x)) g) in PL. set (src := fun b => (0%nat, nth (Z.to_nat b) perm 0)) in PL.
  assert (NT : 0 < nt) by (clear - FOUR P; lia).
  destruct (set_life maxSize sort_set_rule srt outmsg g fds p ns nt inc src M1 M2 NS G0 GI PL sort_set_usable sort_set_good sort_set_label sort_set_copy sort_set_mem SRT h f0 maxSize' sizes' sizes P NT F FB0 M1' RK RUN)
    as (f' & rd' & W & SZ' & O & Q1 & Q2 & Q3 & WF & CF & CV).
  exists f', rd'. split; [exact W|]. split; [exact O|]. split; [exact Q2|].
  assert (FMT : r_format rd' = 5). { destruct (C40_header_round_trip_partial maxSize p h f0 f' nt ns maxSize' sizes' WF M1') as (rd2 & O2 & _ & _ & F5 & _). rewrite O in O2. assert (rd' = rd2) by congruence. congruence. }
  clear O W.
  match type of CF with forall x, In x h -> call_full ?s _ _ _ => pose (so := s); change s with so in CF end.
  assert (SB : forall b, file_bytes (fst (so b))) by (intros b; apply (source_bytes_ok maxSize g fds p ns nt inc src G0 GI PL b)).
  assert (RB : readable maxSize' rd' f').
  { constructor; rewrite ?Q1, ?Q2.
    - exact M2'.
    - exact F.
    - unfold has_traces, trace_at. rewrite SZ'. clear. lia.
    - rewrite FMT. discriminate.
    - intros a x A X. apply (history_bytes maxSize p h f0 f' nt ns _ sort_set_rule WF sort_set_usable sort_set_copy CF SB a (CV a A) x X).
    - intros a x A X. pose proof (history_full maxSize p h f0 f' nt ns _ sort_set_rule WF sort_set_usable sort_set_copy CF SB a (CV a A)) as H.
      destruct (so a) in H. destruct H as (_ & H & _). apply H. exact X. }
  assert (LEN : length perm = Z.to_nat nt) by (rewrite (Permutation_length PM); unfold zr, zrange; rewrite map_length; apply seq_length).
  (* what a trace of the output has *)
  assert (GE : forall b, 0 <= b < nt -> let a := nth (Z.to_nat b) perm 0 in 0 <= a < nt /\ let x := trace_geo rd' f' b in let y := header_geo (disk_header f ns a) a in
    g_il x = g_il y /\ g_xl x = g_xl y /\ g_off x = g_off y /\ g_ltn x = b /\
    (fine_coordinates f ns nt -> val (g_sx x) = val (g_sx y) /\ val (g_sy x) = val (g_sy y) /\ val (g_rx x) = val (g_rx y) /\ val (g_ry x) = val (g_ry y))).
  { intros b B a. assert (A : 0 <= a < nt) by (apply in_zr, (Permutation_in _ PM), nth_In; rewrite LEN; clear - B; lia). split; [exact A|].
    pose proof (history_full maxSize p h f0 f' nt ns _ sort_set_rule WF sort_set_usable sort_set_copy CF SB b (CV b B)) as H.
    unfold so, source_of, src in H. cbn [nth g snd] in H. fold a in H. destruct H as (_ & _ & _ & HI & _ & HC).
    assert (I : forall l, In l copied_ints -> int32_at (disk_header f' ns b) l = int32_at (disk_header f ns a) l) by (intros l L; destruct (sort_set_int l L) as (m & e & LK & ET & <-); apply (HI m e LK ET)).
    unfold trace_geo. rewrite Q1. unfold header_geo. cbn [g_sx g_sy g_rx g_ry g_il g_xl g_off g_ltn]. rewrite !I by (cbn; tauto). repeat (split; [reflexivity|]). intros WC.
    assert (RC : forall l, In l [73; 77; 81; 85] -> val (read_coordinate (disk_header f' ns b) l) = val (read_coordinate (disk_header f ns a) l)).
    { intros l L. destruct (WC a l A L) as (PS & n & N). assert (LC : In l copied_coordinates) by (clear - L; cbn in *; tauto). destruct (sort_set_coordinate l LC) as (m & e & LK & ET & EL & ES).
      destruct (HC m e LK ET) as (PS' & CE); rewrite ?ES, ?EL in *; [exact PS|]. rewrite N in CE.
      assert (LR : 1 <= l <= 237) by (clear - L; destruct L as [<-|[<-|[<-|[<-|[]]]]]; lia).
      rewrite (sixteenth_read _ l n PS' ltac:(rewrite int32_rd by (intros k K; rewrite <- Q1; apply (rb_header _ _ _ RB); [rewrite Q2; exact B|clear - K LR; lia]); apply rd32_range) CE).
      rewrite (sixteenth_read _ l n PS ltac:(rewrite int32_rd by (intros k K; apply FB); apply rd32_range) N). reflexivity. }
    rewrite !RC by (cbn; tauto). repeat split. }
  intros q r vsizes Q R. 
  assert (NTS : in_u64 (r_nt rd')). { rewrite Q2. destruct F as (N0 & N1 & S64 & _). clear - N0 N1 S64. unfold in_u64. assert (nt * 240 <= nt * (240 + 4 * ns)) by (apply Z.mul_le_mono_nonneg_l; lia). lia. }
  destruct (rw_piece_eq (r_nt rd') q r NTS R) as (d & D & _ & OO & L & B). destruct (verify_rows maxSize' rd' f' RB vsizes type q r d Q R D) as (ans & E & A). rewrite E. f_equal. apply A. clear A E D. rewrite Q2 in B.
  intros b B1 B2. assert (BB : 0 <= b < nt /\ 0 <= b + 1 < nt) by (clear - OO L B B1 B2; lia). destruct BB as (BA & BC). clear OO L B B1 B2.
  apply (C50_orders_compare_keys type _ _ T); [apply (readable_finite maxSize' rd' f' b RB); rewrite Q2; exact BA|apply (readable_finite maxSize' rd' f' (b + 1) RB); rewrite Q2; exact BC|].
  pose proof (readable_finite maxSize' rd' f' b RB ltac:(rewrite Q2; exact BA)) as FX. pose proof (readable_finite maxSize' rd' f' (b + 1) RB ltac:(rewrite Q2; exact BC)) as FX'.
  destruct (GE b BA) as (A & IL & XL & OF & LT & CO). destruct (GE (b + 1) BC) as (A' & IL' & XL' & OF' & LT' & CO'). cbv zeta in *.
  set (a := nth (Z.to_nat b) perm 0) in *. set (a' := nth (Z.to_nat (b + 1)) perm 0) in *.
  pose proof (geo_finite f ns FB a a) as FY. pose proof (geo_finite f ns FB a' a') as FY'.
  assert (ORD : ~ lex (keys type (header_geo (disk_header f ns a') a')) (keys type (header_geo (disk_header f ns a) a))).
  { assert (SN : forall (rel : Z -> Z -> Prop) l i, StronglySorted rel l -> (S i < length l)%nat -> rel (nth i l 0) (nth (S i) l 0)).
    { clear. intros rel l i SS. revert i. induction SS as [|x l SS IH FA]; intros i I; [cbn [length] in I; lia|]. destruct i as [|i].
      - cbn [nth]. rewrite Forall_forall in FA. apply FA, nth_In. cbn [length] in I. lia.
      - cbn [nth]. apply IH. cbn [length] in I. lia. }
    pose proof (SN _ perm (Z.to_nat b) SS ltac:(rewrite LEN; clear - BA BC; lia)) as X. cbv beta in X. fold a in X. replace (S (Z.to_nat b)) with (Z.to_nat (b + 1)) in X by (clear - BA; lia). exact X. }
  set (x := trace_geo rd' f' b) in *. set (x' := trace_geo rd' f' (b + 1)) in *. set (y := header_geo (disk_header f ns a) a) in *. set (y' := header_geo (disk_header f ns a') a') in *.
  clearbody x x' y y'. clear - CASE T IL XL OF LT CO IL' XL' OF' LT' CO' FX FX' FY FY' ORD.
  apply (keys_follow type x x' y y' (fine_coordinates f ns nt)); try assumption. rewrite LT, LT'. lia.
Qed.
Print Assumptions C115_sorted_accepted_partial.

(** C115 refuted: four traces with coordinate scale -100, two of them at 0.30; the writer
    stores 0.30 as 3 tenths in one and 30 hundredths in the other, which read back as two
    different doubles, in the wrong order: the file that the sort program has written, run
    on one process, is not accepted. *)
Definition fraction_field (t x : Z) : Z :=
  if x =? 70 then 255 else if x =? 71 then 156
  else if x =? 74 then nth (Z.to_nat t) [0; 0; 1; 2] 0 else if x =? 75 then nth (Z.to_nat t) [30; 30; 244; 88] 0
  else if x =? 79 then nth (Z.to_nat t) [125; 100; 100; 100] 0 else 0.
Definition fraction_byte (q : Z) : Z :=
  if q <? 3600 then (if q =? 3217 then 250 else if q =? 3221 then 1 else if q =? 3225 then 5 else 0)
  else fraction_field ((q - 3600) / 244) ((q - 3600) mod 244).
Definition fraction_file : file := mkFile 4576 fraction_byte.
Lemma fraction_bytes : file_bytes fraction_file.
Proof.
  intros q. unfold fraction_file. cbn [fbyte]. unfold fraction_byte, fraction_field, is_byte.
  repeat match goal with |- context [if ?c then _ else _] => destruct c end; try lia;
    match goal with |- context [nth (Z.to_nat ?t) _ _] => destruct (Z.to_nat t) as [|[|[|[|[|n]]]]] end; cbn; lia.
Qed.
Theorem C115_fraction_refuted :
  exists rd fds ops f' rd',
  set_input 4000 1 (r_inc rd) (rd, fraction_file) /\ 4 <= r_nt rd /\ std_sort isort /\
  (forall a, 0 <= a < 4 -> plain_scale (int16_at (disk_header fraction_file 1 a) 71)) /\
  sort_set 50 50 4000 (fun _ _ => []) isort 35 [(rd, fraction_file)] (group_files (0, 0) [((0, 0), (rd, fraction_file))] 1) 1 = Some fds /\
  set_calls 4000 (fun _ _ => []) sort_set_rule isort [] [(rd, fraction_file)] fds 1 0 = Some ops /\
  write_file 4000 1 (map (pair 0%nat) ops) (mkFile 0 (fun _ => 0)) = Some f' /\ open_file 4000 [] f' = Some rd' /\
  verify_rank 4000 [] 35 rd' f' 1 0 = Some false.
Proof.
  assert (SZ : 3600 <= fsize fraction_file < two64) by (cbn [fraction_file fsize]; unfold two64; lia).
  destruct (open_total 4000 [] fraction_file ltac:(lia) fraction_bytes ltac:(lia)) as (rd & E).
  { assert (Q : int16_at (fbyte fraction_file) 3221 = 1) by reflexivity. lia. }
  destruct (open_inv 4000 [] fraction_file rd ltac:(lia) fraction_bytes SZ E) as (A1 & A2 & A3 & A4 & A5 & _).
  assert (N : r_ns rd = 1) by (rewrite A1; reflexivity). assert (NT : r_nt rd = 4) by (rewrite A5, N; reflexivity).
  pose (verdict := obind (open_file 4000 [] fraction_file) (fun rd =>
    obind (sort_set 50 50 4000 (fun _ _ => []) isort 35 [(rd, fraction_file)] (group_files (0, 0) [((0, 0), (rd, fraction_file))] 1) 1) (fun fds =>
    obind (set_calls 4000 (fun _ _ => []) sort_set_rule isort [] [(rd, fraction_file)] fds 1 0) (fun ops =>
    obind (write_file 4000 1 (map (pair 0%nat) ops) (mkFile 0 (fun _ => 0))) (fun f' =>
    obind (open_file 4000 [] f') (fun rd' => verify_rank 4000 [] 35 rd' f' 1 0)))))).
  assert (V : verdict = Some false) by (vm_compute; reflexivity). unfold verdict in V. clear verdict.
  rewrite E in V. cbn [obind] in V.
  destruct (sort_set 50 50 4000 (fun _ _ => []) isort 35 [(rd, fraction_file)] (group_files (0, 0) [((0, 0), (rd, fraction_file))] 1) 1) as [fds|] eqn:E1; [|discriminate]. cbn [obind] in V.
  destruct (set_calls 4000 (fun _ _ => []) sort_set_rule isort [] [(rd, fraction_file)] fds 1 0) as [ops|] eqn:E2; [|discriminate]. cbn [obind] in V.
  destruct (write_file 4000 1 (map (pair 0%nat) ops) (mkFile 0 (fun _ => 0))) as [f'|] eqn:E3; [|discriminate]. cbn [obind] in V.
  destruct (open_file 4000 [] f') as [rd'|] eqn:E4; [|discriminate]. cbn [obind] in V.
  exists rd, fds, ops, f', rd'. split; [constructor; cbn [fst snd]; [exists []; exact E|exact fraction_bytes|exact SZ|exact N|reflexivity|vm_compute; discriminate|vm_compute; discriminate]|].
  split; [rewrite NT; clear; lia|]. split; [apply isort_std|]. split.
  { clear. intros a A. assert (C : a = 0 \/ a = 1 \/ a = 2 \/ a = 3) by lia. unfold plain_scale. destruct C as [->|[->|[->| ->]]]; vm_compute; tauto. }
  repeat (split; [assumption|]). exact V.
Qed.
Print Assumptions C115_fraction_refuted.

(** Eight traces with coordinates in halves, stored with scale -10. *)
Definition fine_field (t x : Z) : Z := if x =? 75 then nth (Z.to_nat t) [5; 15; 45; 20; 200; 35; 35; 0] 0 else if x =? 79 then 85 else if x =? 70 then 255 else if x =? 71 then 246 else 0.
Definition fine_byte (q : Z) : Z :=
  if q <? 3600 then (if q =? 3217 then 250 else if q =? 3221 then 1 else if q =? 3225 then 5 else 0) else fine_field ((q - 3600) / 244) ((q - 3600) mod 244).
Definition fine_file : file := mkFile 5552 fine_byte.
Example C115_nonvacuous : exists rd, set_input 4000 1 (r_inc rd) (rd, fine_file) /\ 4 * Z.of_nat 2 <= r_nt rd /\ fine_coordinates fine_file 1 (r_nt rd) /\ r_nt rd <= 8 /\
  coordinate (disk_header fine_file 1 0) 73 71 = (/ 2)%R.
Proof.
  assert (FB : file_bytes fine_file).
  { intros q. unfold fine_file. cbn [fbyte]. unfold fine_byte, fine_field, is_byte.
    repeat match goal with |- context [if ?c then _ else _] => destruct c end; try lia. set (t := Z.to_nat _). clearbody t. do 9 (destruct t as [|t]; [cbn; lia|]). cbn. destruct t; lia. }
  assert (SZ : 3600 <= fsize fine_file < two64) by (cbn [fine_file fsize]; unfold two64; lia).
  destruct (open_total 4000 [] fine_file ltac:(lia) FB ltac:(lia)) as (rd & E).
  { assert (Q : int16_at (fbyte fine_file) 3221 = 1) by reflexivity. lia. }
  destruct (open_inv 4000 [] fine_file rd ltac:(lia) FB SZ E) as (A1 & A2 & A3 & A4 & A5 & _).
  assert (N : r_ns rd = 1) by (rewrite A1; reflexivity). assert (NT : r_nt rd = 8) by (rewrite A5, N; reflexivity).
  exists rd. split; [constructor; cbn [fst snd]; [exists []; exact E|exact FB|exact SZ|exact N|reflexivity|vm_compute; discriminate|vm_compute; discriminate]|]. rewrite NT. clear. split; [lia|]. split; [|split; [lia|]].
  - intros a l A L. assert (S : int16_at (disk_header fine_file 1 a) 71 = -10 /\ int32_at (disk_header fine_file 1 a) l = 5 * (int32_at (disk_header fine_file 1 a) l / 5)).
    { assert (C : a = 0 \/ a = 1 \/ a = 2 \/ a = 3 \/ a = 4 \/ a = 5 \/ a = 6 \/ a = 7) by lia. repeat (destruct C as [C|C]; [subst a; destruct L as [<-|[<-|[<-|[<-|[]]]]]; vm_compute; split; reflexivity|]). subst a. destruct L as [<-|[<-|[<-|[<-|[]]]]]; vm_compute; split; reflexivity. }
    destruct S as (S & I). unfold coordinate. rewrite S. split; [unfold plain_scale; cbn; tauto|]. exists (8 * (int32_at (disk_header fine_file 1 a) l / 5)). rewrite I at 1. rewrite !mult_IZR. unfold factor. cbn [Z.eqb Z.ltb Z.compare Z.opp]. field.
  - unfold coordinate. replace (int32_at (disk_header fine_file 1 0) 73) with 5 by (vm_compute; reflexivity). replace (int16_at (disk_header fine_file 1 0) 71) with (-10) by (vm_compute; reflexivity).
    unfold factor. cbn [Z.eqb Z.ltb Z.compare Z.opp]. field.
Qed.
