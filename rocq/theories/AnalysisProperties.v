(** C122: what the program that describes a trace says about it. *)
From Coq Require Import Reals Lra.
From Flocq Require Import Core IEEE754.BinarySingleNaN.
From Verif Require Import Base DecompProofs NumEncModel NumEncSpec NumEncProofs DataIOModel RuleModel DoubleModel ParamModel ParamProofs HeaderProofs ScalarProofs FileSpec FileModel FileProofs WriteSpec WriteProofs ReadProofs OpenProofs
  CopySpec CopyProofs ExampleModel ExampleProofs SetFileModel SetFileSpec SetFileProofs SetSortSpec SetSortProofs VerifyModel VerifyProofs SixteenthProofs VerifyProperties ExtremeProofs SetExtremeSpec SetExtremeProofs AnalysisModel AnalysisSpec AnalysisProofs.
Import ListNotations.
Open Scope Z_scope.

(** C122: for every file that opens and every trace in it the report has the six
    coordinates of that trace (scaled by its own factor, within 2^-51 of the exact value), and
    each of its lines that is not negative. *)
Theorem C122_report : forall maxSize ns inc rd f sizes tn,
  3600 <= maxSize -> 2 * (240 + 4 * ns) <= maxSize -> 0 <= ns <= 32767 -> set_input maxSize ns inc (rd, f) -> 0 <= tn < r_nt rd ->
  exists o, analyse maxSize sizes rd f tn = Some o /\ tells_places o (disk_header f ns tn) /\
  (0 <= int32_at (disk_header f ns tn) 189 -> p_il o = int32_at (disk_header f ns tn) 189) /\
  (0 <= int32_at (disk_header f ns tn) 193 -> p_xl o = int32_at (disk_header f ns tn) 193).
Proof.
  intros maxSize ns inc rd f sizes tn M1 M2 NS SI T. pose proof (input_readable _ _ _ _ _ M1 M2 NS SI) as RB. pose proof (si_ns _ _ _ _ SI) as N. pose proof (si_bytes _ _ _ _ SI) as FB. cbn [fst snd] in N, FB. clear SI.
  rewrite (analyse_inside maxSize rd f RB sizes tn T). rewrite N. clear RB. eexists. split; [reflexivity|]. set (h := disk_header f ns tn).
  assert (HB : forall k, is_byte (h k)) by (intros; apply FB).
  assert (S : in_s16 (int16_at h 71)) by (rewrite int16_rd by apply HB; apply rd16_range). assert (I : forall l, in_s32 (int32_at h l)) by (intros l; rewrite int32_rd by (intros; apply HB); apply rd32_range).
  assert (Q : forall l, shows (read_coordinate h l) (coordinate h l 71)) by (intros l; exact (read_close h l S (I l))).
  unfold tells_places. cbn [p_xSrc p_ySrc p_xRcv p_yRcv p_xCmp p_yCmp p_il p_xl]. split; [repeat split; apply Q|].
  split; intros G; apply u64_small; unfold in_u64, two64; [pose proof (I 189) as J|pose proof (I 193) as J]; unfold in_s32 in J; lia.
Qed.
Print Assumptions C122_report.

(** C122: coordinates that are multiples of a sixteenth, stored at a plain scale, are printed
    without any error. *)
Theorem C122_exact : forall maxSize ns inc rd f sizes tn,
  3600 <= maxSize -> 2 * (240 + 4 * ns) <= maxSize -> 0 <= ns <= 32767 -> set_input maxSize ns inc (rd, f) -> 0 <= tn < r_nt rd ->
  fine_coordinates f ns (r_nt rd) ->
  exists o, analyse maxSize sizes rd f tn = Some o /\ val (p_xSrc o) = coordinate (disk_header f ns tn) 73 71 /\ val (p_ySrc o) = coordinate (disk_header f ns tn) 77 71 /\
  val (p_xRcv o) = coordinate (disk_header f ns tn) 81 71 /\ val (p_yRcv o) = coordinate (disk_header f ns tn) 85 71.
Proof.
  intros maxSize ns inc rd f sizes tn M1 M2 NS SI T FC. pose proof (input_readable _ _ _ _ _ M1 M2 NS SI) as RB. pose proof (si_ns _ _ _ _ SI) as N. pose proof (si_bytes _ _ _ _ SI) as FB. cbn [fst snd] in N, FB. clear SI.
  rewrite (analyse_inside maxSize rd f RB sizes tn T). rewrite N. clear RB. eexists. split; [reflexivity|]. cbn [p_xSrc p_ySrc p_xRcv p_yRcv].
  assert (Q : forall l, In l [73; 77; 81; 85] -> val (read_coordinate (disk_header f ns tn) l) = coordinate (disk_header f ns tn) l 71).
  { intros l L. destruct (FC tn l T L) as (P & n & E). rewrite E. apply sixteenth_read; [exact P| |exact E]. rewrite int32_rd by (intros; apply FB). apply rd32_range. }
  repeat split; apply Q; cbn; tauto.
Qed.
Print Assumptions C122_exact.

(** C122 refuted: a negative line is not printed as it is, in no file: 2^64 is added. *)
Theorem C122_negative_refuted : forall maxSize ns inc rd f sizes tn,
  3600 <= maxSize -> 2 * (240 + 4 * ns) <= maxSize -> 0 <= ns <= 32767 -> set_input maxSize ns inc (rd, f) -> 0 <= tn < r_nt rd ->
  int32_at (disk_header f ns tn) 189 < 0 \/ int32_at (disk_header f ns tn) 193 < 0 ->
  exists o, analyse maxSize sizes rd f tn = Some o /\ ~ tells_lines o (disk_header f ns tn) /\
  p_il o = int32_at (disk_header f ns tn) 189 mod 2 ^ 64 /\ p_xl o = int32_at (disk_header f ns tn) 193 mod 2 ^ 64.
Proof.
  intros maxSize ns inc rd f sizes tn M1 M2 NS SI T NEG. pose proof (input_readable _ _ _ _ _ M1 M2 NS SI) as RB. pose proof (si_ns _ _ _ _ SI) as N. cbn [fst snd] in N. clear SI.
  rewrite (analyse_inside maxSize rd f RB sizes tn T). rewrite N. clear RB. eexists. split; [reflexivity|]. unfold tells_lines. cbn [p_il p_xl]. split; [|split; reflexivity].
  intros (A & B). assert (U : forall z, 0 <= u64 z) by (intros z; unfold u64; apply Z.mod_pos_bound; unfold two64; lia). pose proof (U (int32_at (disk_header f ns tn) 189)). pose proof (U (int32_at (disk_header f ns tn) 193)). lia.
Qed.
Print Assumptions C122_negative_refuted.

(** C122 refuted: asked for the trace after the last one, the program does not fail; on
    every file it describes a trace at the origin, on line 0. *)
Theorem C122_past_end_refuted : forall maxSize ns inc rd f sizes,
  3600 <= maxSize -> 2 * (240 + 4 * ns) <= maxSize -> 0 <= ns <= 32767 -> set_input maxSize ns inc (rd, f) ->
  exists o, analyse maxSize sizes rd f (r_nt rd) = Some o /\ p_il o = 0 /\ p_xl o = 0 /\ Forall (fun v => is_finite v = true /\ val v = 0%R) [p_xSrc o; p_ySrc o; p_xRcv o; p_yRcv o; p_xCmp o; p_yCmp o].
Proof.
  intros maxSize ns inc rd f sizes M1 M2 NS SI. pose proof (input_readable _ _ _ _ _ M1 M2 NS SI) as RB. clear SI. rewrite (analyse_end maxSize rd f RB sizes). eexists. split; [reflexivity|].
  cbn. repeat split. repeat (constructor; [split; reflexivity|]). constructor.
Qed.
Print Assumptions C122_past_end_refuted.

(** Eight traces, the second on line -3, with coordinates in halves. *)
Definition lined_byte (q : Z) : Z := if (q =? 4032) || (q =? 4033) || (q =? 4034) then 255 else if q =? 4035 then 253 else fine_byte q.
Definition lined_file : file := mkFile 5552 lined_byte.
Example C122_nonvacuous : exists rd, set_input 4000 1 (r_inc rd) (rd, lined_file) /\ r_nt rd = 8 /\ fine_coordinates lined_file 1 (r_nt rd) /\
  coordinate (disk_header lined_file 1 1) 73 71 = (3 / 2)%R /\ int32_at (disk_header lined_file 1 1) 189 = -3 /\ int32_at (disk_header lined_file 1 1) 193 = 0.
Proof.
  assert (FB : file_bytes lined_file).
  { intros q. unfold lined_file. cbn [fbyte]. unfold lined_byte, fine_byte, fine_field, is_byte.
    repeat match goal with |- context [if ?c then _ else _] => destruct c end; try lia. set (t := Z.to_nat _). clearbody t. do 9 (destruct t as [|t]; [cbn; lia|]). cbn. destruct t; lia. }
  assert (SZ : 3600 <= fsize lined_file < two64) by (cbn [lined_file fsize]; unfold two64; lia).
  destruct (open_total 4000 [] lined_file ltac:(lia) FB ltac:(lia)) as (rd & E).
  { assert (Q : int16_at (fbyte lined_file) 3221 = 1) by reflexivity. lia. }
  destruct (open_inv 4000 [] lined_file rd ltac:(lia) FB SZ E) as (A1 & A2 & A3 & A4 & A5 & _).
  assert (N : r_ns rd = 1) by (rewrite A1; reflexivity). assert (NT : r_nt rd = 8) by (rewrite A5, N; reflexivity).
  exists rd. split; [constructor; cbn [fst snd]; [exists []; exact E|exact FB|exact SZ|exact N|reflexivity|vm_compute; discriminate|vm_compute; discriminate]|]. rewrite NT. clear. split; [reflexivity|]. split; [|split; [|split; vm_compute; reflexivity]].
  - intros a l A L. assert (S : int16_at (disk_header lined_file 1 a) 71 = -10 /\ int32_at (disk_header lined_file 1 a) l = 5 * (int32_at (disk_header lined_file 1 a) l / 5)).
    { assert (C : a = 0 \/ a = 1 \/ a = 2 \/ a = 3 \/ a = 4 \/ a = 5 \/ a = 6 \/ a = 7) by lia. repeat (destruct C as [C|C]; [subst a; destruct L as [<-|[<-|[<-|[<-|[]]]]]; vm_compute; split; reflexivity|]). subst a. destruct L as [<-|[<-|[<-|[<-|[]]]]]; vm_compute; split; reflexivity. }
    destruct S as (S & I). unfold coordinate. rewrite S. split; [unfold plain_scale; cbn; tauto|]. exists (8 * (int32_at (disk_header lined_file 1 a) l / 5)). rewrite I at 1. rewrite !mult_IZR. unfold factor. cbn [Z.eqb Z.ltb Z.compare Z.opp]. field.
  - unfold coordinate. replace (int32_at (disk_header lined_file 1 1) 73) with 15 by (vm_compute; reflexivity). replace (int16_at (disk_header lined_file 1 1) 71) with (-10) by (vm_compute; reflexivity).
    unfold factor. cbn [Z.eqb Z.ltb Z.compare Z.opp]. field.
Qed.
