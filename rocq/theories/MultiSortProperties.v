(** C118: sorting a set of several files and writing it. *)
From Coq Require Import Reals Lra Permutation Sorted.
From Flocq Require Import Core IEEE754.BinarySingleNaN.
From Verif Require Import Base DecompModel DecompSpec DecompProofs NumEncModel NumEncSpec NumEncProofs CharEncModel CharEncProofs LayoutModel LayoutProofs DataIOModel DataIOProofs
  RuleModel RuleProofs DoubleModel ParamModel ParamProofs HeaderProofs ScalarProofs FileSpec FileModel FileProofs WriteSpec WriteProofs RuleProperties ParamProperties ReadProofs OpenProofs FileProperties TraceProperties.
From Verif Require Import SortSpec SortModel SortProofs CompProofs SortProperties FlowModel FlowProofs FlowProperties CopySpec CopyProofs CopyProperties ExampleModel ExampleProofs SetFileModel SetFileSpec SetFileProofs SetOutProofs SetFileProperties SetSortModel SetSortSpec SetSortProofs SetSortProperties MultiSortSpec MultiSortProofs.
From Verif Require ExtremeProofs.
Import ListNotations.
Open Scope Z_scope.

Lemma agree_across f f' ns a b l : file_bytes f -> file_bytes f' -> int16_at (disk_header f ns a) 71 = int16_at (disk_header f' ns b) 71 ->
  agree (ext (read_coordinate (disk_header f ns a) l)) (ext (read_coordinate (disk_header f' ns b) l)) (coordinate (disk_header f ns a) l 71) (coordinate (disk_header f' ns b) l 71).
Proof.
  intros F1 F2 A. destruct (coordinate_value f ns F1 a l) as (FA & VA). destruct (coordinate_value f' ns F2 b l) as (FB' & VB). rewrite (fin_ext _ FA), (fin_ext _ FB'), VA, VB. unfold coordinate. rewrite <- A.
  set (s := int16_at (disk_header f ns a) 71). assert (S : in_s16 s) by (unfold s; rewrite int16_rd by apply F1; apply rd16_range). destruct (parse_value s S) as (_ & _ & CB).
  apply (agree_mono (fun i => rn (val (parse_scalar s) * IZR i)) (fun i => IZR i * factor s)%R in_s32); [intros; apply scaled_mono; assumption| |apply int32_bounds; assumption|apply int32_bounds; assumption].
  intros i j _ _ L. apply Rmult_lt_compat_r; [apply factor_pos|apply IZR_lt; exact L].
Qed.
Lemma stored_across f ns a l : file_bytes f -> 0 <= int32_at (disk_header f ns a) 37 -> stored (header_geo (disk_header f ns a) l) = IZR (int32_at (disk_header f ns a) 37).
Proof.
  intros FB O. pose proof (int32_bounds f ns FB a 37) as B. unfold stored, header_geo. cbn [g_off]. rewrite u64_id by (unfold in_u64, in_s32, two64 in *; lia).
  destruct (d_of_Z_exact (int32_at (disk_header f ns a) 37)) as (V & F); [unfold in_s32 in B; change (2 ^ 53) with 9007199254740992; lia|]. rewrite (fin_ext _ F). exact V.
Qed.
Lemma lex_across type f f' ns a b la lb : file_bytes f -> file_bytes f' -> In type [35; 37; 39; 41; 43] ->
  int16_at (disk_header f ns a) 71 = int16_at (disk_header f' ns b) 71 -> 0 <= int32_at (disk_header f ns a) 37 -> 0 <= int32_at (disk_header f' ns b) 37 ->
  (lex (keys type (header_geo (disk_header f ns a) la)) (keys type (header_geo (disk_header f' ns b) lb)) <-> lex (header_keys type (disk_header f ns a) la) (header_keys type (disk_header f' ns b) lb)).
Proof.
  intros F1 F2 T A OA OB. pose proof (fun l => agree_across f f' ns a b l F1 F2 A) as CA. pose proof (stored_across f ns a la F1 OA) as SA. pose proof (stored_across f' ns b lb F2 OB) as SB.
  destruct T as [<-|[<-|[<-|[<-|[<-|[]]]]]]; unfold keys, header_keys; cbn [app]; rewrite ?SA, ?SB; unfold header_geo; cbn [g_sx g_sy g_rx g_ry g_il g_xl g_ltn];
    repeat (apply lex_cons; [first [apply CA|apply agree_refl]|]); apply lex_nil.
Qed.
Lemma lead_across type f f' ns a b la lb : file_bytes f -> file_bytes f' -> 35 <= type <= 41 ->
  (lead type (disk_header f ns a) < lead type (disk_header f' ns b))%R -> lex (keys type (header_geo (disk_header f ns a) la)) (keys type (header_geo (disk_header f' ns b) lb)).
Proof.
  intros F1 F2 T L. assert (CC : forall l, (coordinate (disk_header f ns a) l 71 < coordinate (disk_header f' ns b) l 71)%R -> (ext (read_coordinate (disk_header f ns a) l) < ext (read_coordinate (disk_header f' ns b) l))%R).
  { intros l Q. rewrite !fin_ext by (apply coordinate_value; assumption). apply ExtremeProofs.read_order; try exact Q; try (apply int32_bounds; assumption); (rewrite int16_rd by (intros; first [apply F1|apply F2]); apply rd16_range). }
  assert (C : type = 35 \/ type = 36 \/ type = 37 \/ type = 38 \/ type = 39 \/ type = 40 \/ type = 41) by lia. unfold lead in L.
  destruct C as [C|[C|[C|[C|[C|[C|C]]]]]]; subst type; cbn [Z.leb Z.compare Pos.compare Pos.compare_cont] in L; unfold keys, header_geo; cbn [g_sx g_sy g_rx g_ry g_il g_xl g_ltn app lex]; left; first [apply CC; exact L|exact L].
Qed.
Lemma sorted_weaken {A} (P Q : A -> A -> Prop) l : (forall x y, In x l -> In y l -> P x y -> Q x y) -> StronglySorted P l -> StronglySorted Q l.
Proof.
  intros H S. induction S as [|x l S IH F]; [constructor|]. constructor; [apply IH; intros; apply H; [right|right|]; assumption|].
  rewrite Forall_forall in *. intros y Y. apply H; [left; reflexivity|right; exact Y|apply F; exact Y].
Qed.
Lemma in_every nts : Forall (fun n => 0 <= n) nts -> forall k i, In (k, i) (every_trace nts) <-> (k < length nts)%nat /\ 0 <= i < nth k nts 0.
Proof.
  intros F. assert (G : forall nts m k i, In (k, i) (traces_from m nts) <-> (m <= k < m + length nts)%nat /\ 0 <= i < nth (k - m) nts 0).
  { clear. induction nts as [|n nts IH]; intros m k i; cbn [traces_from]; [cbn; split; [contradiction|lia]|]. rewrite in_app_iff, IH, in_map_iff. cbn [length]. split.
    - intros [(j & E & J)|(A & B)]; [injection E as <- <-; apply in_zr in J; rewrite Nat.sub_diag; cbn [nth]; lia|]. replace (k - m)%nat with (Datatypes.S (k - Datatypes.S m)) by lia. cbn [nth]. split; [lia|exact B].
    - intros (A & B). destruct (Nat.eq_dec k m) as [->|NE]; [left; exists i; rewrite Nat.sub_diag in B; split; [reflexivity|apply in_zr; exact B]|right]. replace (k - m)%nat with (Datatypes.S (k - Datatypes.S m)) in B by lia. cbn [nth] in B. split; [lia|exact B]. }
  intros k i. unfold every_trace. rewrite G, Nat.sub_0_r. cbn [Nat.add]. intuition lia.
Qed.
Lemma nodup_every nts : Forall (fun n => 0 <= n) nts -> NoDup (every_trace nts).
Proof.
  intros F. apply (NoDup_map_inv (fun x => zsum (firstn (fst x) nts) + snd x)). unfold every_trace. rewrite <- locate_all, map_map by exact F.
  rewrite (map_ext_in _ (fun b => b)); [rewrite map_id; unfold zr; apply nodup_zrange|]. intros b B. apply in_zr in B. destruct (located nts F b B) as (k & i & K & I & ->). rewrite locate_spec by assumption. reflexivity.
Qed.

(** One process, any number of files with four traces between them: the sort ends; and
    there is one rearrangement of the traces of all files, every trace once, in the order
    asked for (equal keys: trace 0 of every file first, then trace 1, ...), such that the
    file written has at every position the trace that belongs there. For orders 35 to 41 the
    first key never decreases as a number, whatever the scale factors in the files; if all
    traces have the same scale and no offset is negative, the order is the order of the
    numbers in the headers. Missing: two or more processes, where it is false
    (C118_two_processes_refuted). *)
Theorem C118_one_process_partial : forall maxSize ns inc key fl type srt outmsg sizes0 (sizes : nat -> nat -> list Z),
  let g := group_members key fl in let nts := map (fun x => r_nt (fst x)) g in let nt := zsum nts in
  let hdr (x : nat * Z) := disk_header (file_of g (fst x)) ns (snd x) in let number (x : nat * Z) := snd x * Z.of_nat (length g) + Z.of_nat (fst x) in
  3600 <= maxSize -> 2 * (240 + 4 * ns) <= maxSize -> 0 <= ns <= 32767 -> 4 <= nt -> fits nt ns -> Z.of_nat (length g) * nt <= 2 ^ 63 ->
  Forall (fun x => in_u64 (r_nt (fst (snd x)))) fl -> (forall k, gsum k (map (fun x => (fst x, r_nt (fst (snd x)))) fl) < two64) ->
  (forall x, In x g -> set_input maxSize ns inc x) -> std_sort srt -> 35 <= type <= 43 ->
  let sort fuel fuel2 := sort_set fuel fuel2 maxSize sizes0 srt type g (group_files key fl 1) 1 in
  (exists n, forall fuel, (n <= fuel)%nat -> exists n2, forall fuel2, (n2 <= fuel2)%nat -> exists fds, sort fuel fuel2 = Some fds) /\
  forall fuel fuel2 fds, sort fuel fuel2 = Some fds ->
  exists perm ws, Permutation perm (every_trace nts) /\ NoDup perm /\ (forall k i, In (k, i) perm <-> (k < length g)%nat /\ 0 <= i < r_nt (fst (nth k g no_input))) /\
  StronglySorted (fun a b => ~ lex (keys type (trace_geo g ns b)) (keys type (trace_geo g ns a))) perm /\
  (type <= 41 -> StronglySorted (fun a b => (lead type (hdr a) <= lead type (hdr b))%R) perm) /\
  (In type [35; 37; 39; 41; 43] -> (exists s, forall x, In x perm -> int16_at (hdr x) 71 = s /\ 0 <= int32_at (hdr x) 37) ->
     StronglySorted (fun a b => lex (header_keys type (hdr a) (number a)) (header_keys type (hdr b) (number b))) perm) /\
  set_calls maxSize sizes sort_set_rule srt outmsg g fds 1 0 = Some ws /\
  forall f0 maxSize' sizes', file_bytes f0 -> 3600 <= maxSize' ->
  exists f' rd', write_file maxSize 1 (map (pair 0%nat) ws) f0 = Some f' /\ fsize f' = 3600 + nt * (240 + 4 * ns) /\
  open_file maxSize' sizes' f' = Some rd' /\ r_ns rd' = ns /\ r_nt rd' = nt /\ r_inc rd' = inc /\
  forall b, 0 <= b < nt -> let x := nth (Z.to_nat b) perm (0%nat, 0) in sorted_copy (file_of g (fst x)) (snd x) f' b ns.
Proof.
  intros maxSize ns inc key fl type srt outmsg sizes0 sizes g nts nt hdr number M1 M2 NS FOUR F SM U B GI SRT T sort.
  split; [apply (many_defined maxSize ns inc key fl M1 M2 NS U B GI FOUR SM sizes0 srt type SRT T)|].
  intros fuel fuel2 fds S. destruct (many_result maxSize ns inc key fl M1 M2 NS U B GI FOUR SM fuel fuel2 sizes0 srt type fds SRT T S) as (perm & PM & SS & PL).
  fold g in PM, SS, PL. fold nts in PM, PL. fold nt in PL. set (src := fun b => nth (Z.to_nat b) perm (0%nat, 0)) in PL.
  assert (NN : Forall (fun n => 0 <= n) nts) by apply (nts_pos key fl U).
  assert (G0 : g <> []). { intros E. clear -E FOUR. unfold nt, nts in FOUR. rewrite E in FOUR. cbn in FOUR. lia. }
  destruct (output_calls maxSize sort_set_rule srt outmsg g fds 1 ns nt inc src M1 M2 NS G0 GI PL sort_set_usable sort_set_good sort_set_label sort_set_copy sort_set_mem SRT sizes 0%nat ltac:(lia)) as (ws & E & _ & _).
  assert (ND : NoDup perm) by (apply (Permutation_NoDup (Permutation_sym PM)), nodup_every, NN).
  assert (IN : forall k i, In (k, i) perm <-> (k < length g)%nat /\ 0 <= i < r_nt (fst (nth k g no_input))).
  { intros k i. assert (Q : In (k, i) perm <-> In (k, i) (every_trace nts)) by (split; apply Permutation_in; [|apply Permutation_sym]; exact PM). rewrite Q, in_every by exact NN. unfold nts at 1. rewrite map_length.
    split; intros (A1 & A2); (split; [exact A1|]); pose proof (nts_nth key fl k A1) as QN; change (nth k nts 0 = r_nt (fst (nth k g no_input))) in QN; clear -A2 QN; lia. }
  assert (FBX : forall x, In x perm -> file_bytes (file_of g (fst x))). { intros (k, i) X. apply IN in X. destruct X as (X & _). cbn [fst]. apply (si_bytes _ _ _ _ (GI _ (nth_In g no_input X))). }
  exists perm, (set_announcements ns inc outmsg ++ ws). split; [exact PM|]. split; [exact ND|]. split; [exact IN|]. split; [exact SS|]. split; [|split; [|split; [exact E|]]].
  - intros TT. apply (sorted_weaken _ _ _) with (2 := SS). intros x y X Y Q. destruct (Rle_lt_dec (lead type (hdr x)) (lead type (hdr y))) as [L|L]; [exact L|]. exfalso. apply Q. apply lead_across; [apply FBX, Y|apply FBX, X|clear -T TT; lia|exact L].
  - intros TT (s & SC). assert (H : StronglySorted (fun a b => a <> b) perm).
    { clear -ND. induction ND as [|x l N ND IH]; constructor; [exact IH|]. apply Forall_forall. intros y Y ->. contradiction. }
    assert (H2 : StronglySorted (fun a b => a <> b /\ ~ lex (keys type (trace_geo g ns b)) (keys type (trace_geo g ns a))) perm).
    { clear -H SS. induction SS as [|x l SS IH Q]; [constructor|]. inversion H as [|? ? H1 H2]; subst. constructor; [apply IH; exact H1|]. rewrite Forall_forall in *. intros y Y. split; [apply H2|apply Q]; exact Y. }
    apply (sorted_weaken _ _ _) with (2 := H2). intros x y X Y (NE & Q). destruct (SC x X) as (X1 & X2). destruct (SC y Y) as (Y1 & Y2). unfold trace_geo in Q. unfold hdr in X1, X2, Y1, Y2.
    rewrite (lex_across type _ _ ns _ _ _ _ (FBX y Y) (FBX x X) TT (eq_trans Y1 (eq_sym X1)) Y2 X2) in Q. fold (hdr x) (hdr y) in Q. fold (number x) (number y) in Q.
    assert (NN' : number x <> number y).
    { intros EQ. apply NE. destruct x as (k, i), y as (k', i'). apply IN in X, Y. unfold number in EQ. cbn [fst snd] in EQ. clear -X Y EQ. destruct X as (X & _), Y as (Y & _). assert (A : 0 <= Z.of_nat k < Z.of_nat (length g)) by lia. assert (A' : 0 <= Z.of_nat k' < Z.of_nat (length g)) by lia.
      assert (i = i'). { apply (f_equal (fun z => z / Z.of_nat (length g))) in EQ. rewrite !(Z.add_comm (_ * _)), !Z.div_add, !Z.div_small in EQ by lia. lia. } subst i'. assert (k = k') by lia. subst. reflexivity. }
    clear -Q NN' TT. unfold header_keys in *. destruct TT as [<-|[<-|[<-|[<-|[<-|[]]]]]]; cbn [app lex] in *;
      repeat match goal with |- (?x < ?y)%R \/ _ => destruct (Rtotal_order x y) as [?|[?|?]]; [left; assumption|right; split; [assumption|]|exfalso; apply Q; repeat first [left; lra|right; split; [lra|]]] end.
    all: apply NN', eq_IZR; assumption.
  - intros f0 maxSize' sizes' FB0 M'. assert (NT : 0 < nt) by (clear -FOUR; lia).
    set (h := map (pair 0%nat) (set_announcements ns inc outmsg ++ ws)).
    assert (RO : rank_ops h 0 = set_announcements ns inc outmsg ++ ws) by (unfold h, rank_ops; clear; induction (_ ++ _) as [|x l IH]; [reflexivity|]; cbn [map filter fst Nat.eqb snd]; f_equal; exact IH).
    assert (RK : forall x, In x h -> (fst x < 1)%nat) by (intros x X; apply in_map_iff in X; destruct X as (y & <- & _); cbn; lia).
    destruct (set_life maxSize sort_set_rule srt outmsg g fds 1 ns nt inc src M1 M2 NS G0 GI PL sort_set_usable sort_set_good sort_set_label sort_set_copy sort_set_mem SRT h f0 maxSize' sizes' (fun _ => sizes) ltac:(lia) NT F FB0 M' RK)
      as (f' & rd' & W & SZ' & O & Q1 & Q2 & Q3 & WF & CF & CV).
    { intros r R. assert (r = 0%nat) as -> by (clear -R; lia). rewrite RO. exact E. }
    exists f', rd'. repeat (split; [assumption|]). intros b Hb x.
    pose proof (history_full maxSize 1 h f0 f' nt ns _ sort_set_rule WF sort_set_usable sort_set_copy CF (fun b => source_bytes_ok maxSize g fds 1 ns nt inc src G0 GI PL b) b (CV b Hb)) as H.
    assert (XI : (fst x < length g)%nat). { assert (X : In x perm) by (apply nth_In; rewrite (Permutation_length PM); unfold every_trace; rewrite <- locate_all, map_length, length_zr by exact NN; fold nt; clear -Hb; lia). destruct x as (k, i). apply IN in X. apply X. }
    unfold source_of, src in H. fold x in H. clearbody x. destruct x as (k, i). cbn [fst snd] in *. rewrite (nth_indep g _ no_input XI) in H. destruct H as (HS & _ & HH & HI & _ & HC). fold (file_of g k) in HS, HH, HI, HC.
    constructor; [constructor| |].
    + exact HS.
    + intros l L. destruct (sort_set_int l L) as (m & e & LK & ET & <-). apply (HI m e LK ET).
    + intros PS l L. destruct (sort_set_coordinate l L) as (m & e & LK & ET & <- & ES). destruct (HC m e LK ET) as (_ & Q); rewrite ES in *; [exact PS|exact Q].
    + intros PS. destruct sort_set_depth as (e & LK & ET & EL & ES). destruct (HC 19 e LK ET) as (_ & Q); rewrite ES in *; [exact PS|rewrite EL in Q; exact Q].
    + intros y Y N. apply HH; [exact Y|apply sort_set_untouched; assumption].
Qed.
Print Assumptions C118_one_process_partial.

(** Two files: file c has lines c, c + 2, c + 4, ... *)
Definition part_byte (c q : Z) : Z :=
  if q <? 3600 then (if q =? 3217 then 250 else if q =? 3221 then 1 else if q =? 3225 then 5 else 0)
  else let t := (q - 3600) / 244 in let x := (q - 3600) mod 244 in if x =? 191 then (c + 2 * t) mod 256 else 0.
Definition part_file (c n : Z) : file := mkFile (3600 + n * 244) (part_byte c).
Definition two_parts (rd1 rd2 : reader) : list (gkey * (reader * file)) := [((1, 250), (rd1, part_file 1 8)); ((1, 250), (rd2, part_file 2 4))].
(** The set of both, sorted by line on p ranks and written, one rank after the other. *)
Definition parts_sorted (p : nat) : option file :=
  obind (open_file 4000 [] (part_file 1 8)) (fun rd1 => obind (open_file 4000 [] (part_file 2 4)) (fun rd2 =>
  let fl := two_parts rd1 rd2 in let g := group_members (1, 250) fl in
  obind (sort_set 50 50 4000 (fun _ _ => []) isort 41 g (group_files (1, 250) fl p) p) (fun fds =>
  obind (omap (fun r => set_calls 4000 (fun _ _ => []) sort_set_rule isort [] g fds p r) (seq 0 p)) (fun ops =>
  write_file 4000 p (concat (map (fun r => map (pair r) (nth r ops [])) (seq 0 p))) (mkFile 0 (fun _ => 0)))))).
Definition lines_of (f : file) : list Z := map (fun b => int32_at (disk_header f 1 b) 189) (zr ((fsize f - 3600) / 244)).
(** C118 refuted: the same two files sorted on one process and on two. On two the file is
    not in order. *)
Theorem C118_two_processes_refuted : option_map lines_of (parts_sorted 1) = Some [1; 2; 3; 4; 5; 6; 7; 8; 9; 11; 13; 15] /\
  option_map lines_of (parts_sorted 2) = Some [1; 2; 3; 4; 5; 13; 7; 6; 9; 11; 15; 8].
Proof. split; vm_compute; reflexivity. Qed.
Print Assumptions C118_two_processes_refuted.

(** These two files meet the hypotheses of C118_one_process_partial. *)
Example C118_nonvacuous : exists rd1 rd2, let fl := two_parts rd1 rd2 in let g := group_members (1, 250) fl in let nts := map (fun x => r_nt (fst x)) g in
  g = [(rd1, part_file 1 8); (rd2, part_file 2 4)] /\ nts = [8; 4] /\ 4 <= zsum nts /\ fits (zsum nts) 1 /\ Z.of_nat (length g) * zsum nts <= 2 ^ 63 /\
  Forall (fun x => in_u64 (r_nt (fst (snd x)))) fl /\ (forall k, gsum k (map (fun x => (fst x, r_nt (fst (snd x)))) fl) < two64) /\
  (forall x, In x g -> set_input 4000 1 (r_inc rd1) x) /\ std_sort isort.
Proof.
  assert (OP : forall c n, 0 < n < 100 -> exists rd, set_input 4000 1 (dmul incFactor (d_of_Z 250)) (rd, part_file c n) /\ r_nt rd = n /\ r_inc rd = dmul incFactor (d_of_Z 250)).
  { intros c n N. assert (FB : file_bytes (part_file c n)).
    { intros q. unfold part_file. cbn [fbyte]. unfold part_byte. cbv zeta. unfold is_byte.
      repeat match goal with |- context [if ?c then _ else _] => destruct c end; try lia; pose proof (Z.mod_pos_bound (c + 2 * ((q - 3600) / 244)) 256 ltac:(lia)); lia. }
    assert (SZ : 3600 <= fsize (part_file c n) < two64) by (cbn [part_file fsize]; unfold two64; lia).
    destruct (open_total 4000 [] (part_file c n) ltac:(lia) FB ltac:(lia)) as (rd & E).
    { assert (Q : int16_at (fbyte (part_file c n)) 3221 = 1) by reflexivity. lia. }
    exists rd. destruct (open_inv 4000 [] (part_file c n) rd ltac:(lia) FB SZ E) as (A1 & A2 & A3 & A4 & A5 & _).
    assert (N1 : r_ns rd = 1) by (rewrite A1; reflexivity). assert (NT : r_nt rd = n). { rewrite A5, N1. cbn [part_file fsize]. change (240 + 4 * 1) with 244. replace (3600 + n * 244 - 3600) with (n * 244) by ring. apply Z.div_mul. discriminate. }
    assert (IC : r_inc rd = dmul incFactor (d_of_Z 250)) by (rewrite A2; reflexivity).
    split; [|split; [exact NT|exact IC]]. constructor; cbn [fst snd]; [exists []; exact E|exact FB|exact SZ|exact N1|exact IC| |]; (assert (Q : int16_at (fbyte (part_file c n)) 3225 = 5 /\ int16_at (fbyte (part_file c n)) 3217 = 250) by (split; reflexivity); destruct Q as (Q1 & Q2); rewrite ?Q1, ?Q2; clear; lia). }
  destruct (OP 1 8 ltac:(lia)) as (rd1 & S1 & T1 & I1). destruct (OP 2 4 ltac:(lia)) as (rd2 & S2 & T2 & I2). clear OP. exists rd1, rd2. cbv zeta. unfold two_parts. cbn [group_members filter map fst snd gkeqb Z.eqb Pos.eqb andb]. rewrite T1, T2, I1.
  split; [reflexivity|]. split; [reflexivity|]. change (zsum [8; 4]) with 12. split; [lia|]. split; [unfold fits, two64; cbn; repeat split; lia|]. split; [vm_compute; discriminate|].
  split; [repeat constructor; cbn [fst snd]; rewrite ?T1, ?T2; unfold two64; lia|]. split; [|split; [|apply isort_std]].
  - intros k. unfold gsum. cbn [filter map fst snd]. destruct (gkeqb (1, 250) k); vm_compute; reflexivity.
  - intros x [<-|[<-|[]]]; assumption.
Qed.
