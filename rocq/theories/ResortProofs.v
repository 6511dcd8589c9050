(** Lemmas about sorting a file that is sorted. *)
From Coq Require Import Reals Lra Permutation Sorted.
From Flocq Require Import Core IEEE754.BinarySingleNaN.
From Verif Require Import Base DecompModel DecompSpec DecompProofs NumEncModel NumEncSpec NumEncProofs CharEncModel CharEncProofs LayoutModel LayoutProofs DataIOModel DataIOProofs
  RuleModel RuleProofs DoubleModel ParamModel ParamProofs HeaderProofs ScalarProofs FileSpec FileModel FileProofs WriteSpec WriteProofs RuleProperties ParamProperties ReadProofs OpenProofs FileProperties TraceProperties.
From Verif Require Import SortSpec SortModel SortProofs CompProofs SortProperties FlowModel FlowProofs FlowProperties CopySpec CopyProofs CopyProperties ExampleModel ExampleProofs SetFileModel SetFileSpec SetFileProofs SetOutProofs SetSortModel SetSortSpec SetSortProofs SetSortProperties VerifyModel VerifyProofs SixteenthProofs VerifyProperties.
Import ListNotations.
Open Scope Z_scope.

(** ---- a sorted rearrangement of 0, 1, 2, ... is the list itself ---- *)
Lemma sorted_unique : forall l m, StronglySorted Z.lt l -> StronglySorted Z.lt m -> Permutation l m -> l = m.
Proof.
  induction l as [|a l IH]; intros m SL SM P; [apply Permutation_nil in P; congruence|]. destruct m as [|b m]; [apply Permutation_sym, Permutation_nil in P; discriminate|].
  inversion SL as [|? ? SL' FL]; subst. inversion SM as [|? ? SM' FM]; subst. rewrite Forall_forall in FL, FM.
  assert (a = b).
  { assert (IA : In a (b :: m)) by (apply (Permutation_in _ P); left; reflexivity). assert (IB : In b (a :: l)) by (apply (Permutation_in _ (Permutation_sym P)); left; reflexivity).
    destruct IA as [|IA]; [congruence|]. destruct IB as [|IB]; [congruence|]. specialize (FL b IB). specialize (FM a IA). lia. }
  subst b. f_equal. apply IH; [assumption|assumption|]. apply Permutation_cons_inv in P. exact P.
Qed.
Lemma zrange_sorted n : StronglySorted Z.lt (zrange n).
Proof.
  induction n as [|n IH]; [constructor|]. rewrite zrange_S.
  assert (Q : forall l x, StronglySorted Z.lt l -> (forall y, In y l -> y < x) -> StronglySorted Z.lt (l ++ [x])).
  { clear. induction l as [|a l IH]; intros x S H; [repeat constructor|]. cbn [app]. inversion S as [|? ? S' F]; subst. constructor; [apply IH; [exact S'|intros; apply H; right; assumption]|].
    apply Forall_app. split; [exact F|]. constructor; [apply H; left; reflexivity|constructor]. }
  apply Q; [exact IH|]. intros y Y. apply in_zrange in Y. lia.
Qed.
Lemma in_order_same (k : Z -> list R) nt perm : (forall a, 0 <= a -> a + 1 < nt -> lex (k a) (k (a + 1))) ->
  Permutation perm (zr nt) -> StronglySorted (fun a b => ~ lex (k b) (k a)) perm -> perm = zr nt.
Proof.
  intros ADJ PM SS. apply sorted_unique; [|apply zrange_sorted|exact PM].
  assert (MONO : forall d a, 0 <= a -> a + 1 + Z.of_nat d < nt -> lex (k a) (k (a + 1 + Z.of_nat d))).
  { induction d as [|d IH]; intros a A B; [rewrite Z.add_0_r; apply ADJ; lia|]. apply lex_trans with (k (a + 1 + Z.of_nat d)); [apply IH; lia|].
    replace (a + 1 + Z.of_nat (S d)) with (a + 1 + Z.of_nat d + 1) by lia. apply ADJ; lia. }
  assert (ND : NoDup perm) by (apply (Permutation_NoDup (Permutation_sym PM)); unfold zr; apply nodup_zrange).
  assert (IN : forall a, In a perm -> 0 <= a < nt) by (intros a A; apply in_zr, (Permutation_in _ PM), A). clear PM.
  induction SS as [|a l SS IH Q]; [constructor|]. inversion ND as [|? ? N1 N2]; subst. constructor; [apply IH; [exact N2|intros; apply IN; right; assumption]|].
  rewrite Forall_forall in *. intros b B. specialize (Q b B). assert (NE : a <> b) by (intros ->; contradiction). destruct (Z_lt_dec a b) as [L|L]; [exact L|]. exfalso. apply Q.
  pose proof (IN a (or_introl eq_refl)). pose proof (IN b (or_intror B)). replace a with (b + 1 + Z.of_nat (Z.to_nat (a - b - 1))) by lia. apply MONO; lia.
Qed.

(** ---- what the sort program writes can be opened again ---- *)
Lemma factor_bounds : (0 < val incFactor < 1)%R.
Proof.
  unfold val. rewrite <- SF2R_B2SF. replace (B2SF incFactor) with (SpecFloat.S754_finite false 4722366482869645 (-72)) by (vm_compute; reflexivity). cbn [SF2R cond_Zopp]. unfold F2R. cbn [Fnum Fexp].
  assert (E : (bpow radix2 (-72) = / 4722366482869645213696)%R) by (cbn; lra). rewrite E. lra.
Qed.
Lemma interval_sign j : in_s16 j -> (val (dmul incFactor (d_of_Z j)) > 0)%R -> 1 <= j.
Proof.
  intros J V. destruct (Z_le_gt_dec 1 j) as [L|L]; [exact L|]. exfalso. pose proof factor_bounds as FB. unfold in_s16 in J.
  destruct (d_of_Z_exact j) as (V2 & F2); [change (2 ^ 53) with 9007199254740992; lia|].
  assert (JB : (-32768 <= IZR j <= 0)%R) by (split; apply IZR_le; lia).
  assert (NEG : (-32768 <= val incFactor * IZR j <= 0)%R).
  { split.
    - apply Rle_trans with (1 * IZR j)%R; [lra|]. assert (X : (0 <= (1 - val incFactor) * - IZR j)%R) by (apply Rmult_le_pos; lra). lra.
    - rewrite <- (Rmult_0_r (val incFactor)). apply Rmult_le_compat_l; lra. }
  destruct (dmul_spec incFactor (d_of_Z j)) as (DV & _).
  - rewrite V2. apply Rle_lt_trans with (bpow radix2 50); [|apply bpow_lt; lia]. apply abs_round_le_generic; [typeclasses eauto|typeclasses eauto| |].
    + apply generic_format_bpow. unfold fx. cbn. lia.
    + apply Rabs_le. assert (32768 <= bpow radix2 50)%R by (cbn; lra). lra.
  - rewrite V2 in DV. rewrite DV in V. assert (Z0 : (rn (val incFactor * IZR j) <= rn 0)%R) by (apply round_le; [typeclasses eauto|typeclasses eauto|lra]). unfold rn at 2 in Z0. rewrite round_0 in Z0 by typeclasses eauto. lra.
Qed.
(** The bytes of a file are those within its size. *)
Definition same_file (f g : file) : Prop := fsize g = fsize f /\ forall q, 0 <= q < fsize f -> fbyte g q = fbyte f q.
Lemma same_header f g ns nt a x : same_file f g -> 0 <= ns -> fsize f = 3600 + nt * (240 + 4 * ns) -> 0 <= a < nt -> 0 <= x < 240 -> disk_header g ns a x = disk_header f ns a x.
Proof.
  intros (S & B) N Z A X. unfold disk_header. apply B. rewrite Z. unfold trace_at. assert ((a + 1) * (240 + 4 * ns) <= nt * (240 + 4 * ns)) by (apply Z.mul_le_mono_nonneg_r; lia).
  assert (0 <= a * (240 + 4 * ns)) by (apply Z.mul_nonneg_nonneg; lia). lia.
Qed.
Lemma same_geo f g ns nt a : same_file f g -> 0 <= ns -> fsize f = 3600 + nt * (240 + 4 * ns) -> 0 <= a < nt -> header_geo (disk_header g ns a) a = header_geo (disk_header f ns a) a.
Proof.
  intros S N Z A. pose proof (fun x => same_header f g ns nt a x S N Z A) as H. unfold header_geo, read_coordinate, int16_at, int32_at. rewrite !H by lia. reflexivity.
Qed.
Lemma output_input maxSize p h f0 f' nt ns inc maxSize' sizes' rd' f2 i : 3600 <= maxSize -> 3600 <= maxSize' ->
  written_file maxSize p h f0 f' nt ns -> open_file maxSize' sizes' f' = Some rd' -> r_inc rd' = inc -> inc = dmul incFactor (d_of_Z i) -> 1 <= i <= 32767 ->
  same_file f' f2 -> file_bytes f2 -> set_input maxSize ns inc (rd', f2).
Proof.
  intros M M' W O RI INC I (SZ2 & SB) FB. destruct (life _ _ _ _ _ _ _ W) as (f & hd & k & _ & FA & NS & NS0 & _ & _ & K & SZ & B1 & _ & X1 & X2 & X3 & X4).
  pose proof FA as (_ & N2 & N3 & _). set (nt' := asked_by_all h p) in *.
  assert (GE : 3600 <= fsize f' < two64). { rewrite SZ. unfold trace_at. assert (0 <= nt' * (240 + 4 * ns)) by (apply Z.mul_nonneg_nonneg; lia). lia. }
  pose proof (open_spec maxSize' sizes' f' hd nt' ns M' FA NS SZ B1 X1) as O1.
  assert (B2 : forall q, 0 <= q < 3600 -> fbyte f2 q = hd q) by (intros q Q; rewrite SB by lia; apply B1; exact Q).
  pose proof (open_spec maxSize sizes' f2 hd nt' ns M FA NS ltac:(rewrite SZ2; exact SZ) B2 X1) as O2. rewrite O in O1.
  assert (E : rd' = mkR ns nt' (dmul incFactor (d_of_Z (rd16 hd 3216))) (rd16 hd 3224) (read_text (map hd (zr 3200)))) by congruence. clear O1.
  constructor; cbn [fst snd].
  - exists sizes'. rewrite O2, E. reflexivity.
  - exact FB.
  - rewrite SZ2. exact GE.
  - rewrite E. reflexivity.
  - exact RI.
  - clear O2. rewrite int16_rd by apply FB. change (3225 - 1) with 3224. unfold rd16 in X3 |- *. change (3224 + 1) with 3225 in *. rewrite !B2 by lia. rewrite X3. discriminate.
  - clear O2. rewrite int16_rd by apply FB. change (3217 - 1) with 3216. assert (R : rd16 (fbyte f2) 3216 = rd16 hd 3216) by (unfold rd16; change (3216 + 1) with 3217; rewrite !B2 by lia; reflexivity). rewrite R.
    apply interval_sign; [apply rd16_range|]. assert (EI : dmul incFactor (d_of_Z (rd16 hd 3216)) = inc) by (rewrite <- RI, E; reflexivity). rewrite EI, INC. clear - I.
    destruct (inc_value i ltac:(lia)) as (_ & B). assert (IR : (1 <= IZR i <= 32767)%R) by (split; apply IZR_le; lia).
    assert (S : (bpow radix2 (-51) <= bpow radix2 (-1))%R) by (apply bpow_le; lia). assert (S2 : (bpow radix2 (-1) = / 2)%R) by (cbn; lra). apply Rabs_le_inv in B.
    assert (UP : (IZR i / 1000000 * bpow radix2 (-51) <= IZR i / 1000000 * / 2)%R) by (apply Rmult_le_compat_l; lra). unfold val in *. lra.
Qed.

(** ---- the traces of the output are in order ---- *)
Lemma sorted_output : forall maxSize ns inc key rd f p type srt outmsg sizes0 (sizes : nat -> nat -> nat -> list Z) fuel fuel2 fds,
  3600 <= maxSize -> 2 * (240 + 4 * ns) <= maxSize -> 0 <= ns <= 32767 -> (0 < p)%nat -> 4 * Z.of_nat p <= r_nt rd ->
  set_input maxSize ns inc (rd, f) -> std_sort srt -> 35 <= type <= 43 ->
  type = 41 \/ type = 43 \/ fine_coordinates f ns (r_nt rd) ->
  sort_set fuel fuel2 maxSize sizes0 srt type [(rd, f)] (group_files key [(key, (rd, f))] p) p = Some fds ->
  forall h f0 maxSize' sizes', file_bytes f0 -> 3600 <= maxSize' -> 2 * (240 + 4 * ns) <= maxSize' -> (forall x, In x h -> (fst x < p)%nat) ->
  (forall r, (r < p)%nat -> set_calls maxSize (sizes r) sort_set_rule srt outmsg [(rd, f)] fds p r = Some (rank_ops h r)) ->
  exists f' rd', write_file maxSize p h f0 = Some f' /\ open_file maxSize' sizes' f' = Some rd' /\ r_ns rd' = ns /\ r_nt rd' = r_nt rd /\ r_inc rd' = inc /\ fsize f' = 3600 + r_nt rd * (240 + 4 * ns) /\
  written_file maxSize p h f0 f' (r_nt rd) ns /\
  forall b, 0 <= b -> b + 1 < r_nt rd -> lex (keys type (header_geo (disk_header f' ns b) b)) (keys type (header_geo (disk_header f' ns (b + 1)) (b + 1))).
Proof.
  intros maxSize ns inc key rd f p type srt outmsg sizes0 sizes fuel fuel2 fds M1 M2 NS P FOUR SI SRT T CASE S h f0 maxSize' sizes' FB0 M1' M2' RK RUN. pose proof SI as [(sz0 & OP) FB SZ NSE INC FM IV]. cbn [fst snd] in OP, FB, SZ, NSE, INC, FM, IV.
  destruct (open_fits _ _ _ _ M1 FB SZ OP ltac:(rewrite NSE; clear - NS; lia)) as (F & HT). destruct (open_inv _ _ _ _ M1 FB SZ OP) as (_ & _ & RF & _). rewrite NSE in F, HT. set (nt := r_nt rd) in *.
  assert (FM' : r_format rd <> 1) by congruence. clear OP SZ RF.
  destruct (sort_result maxSize ns nt rd f M2 NSE eq_refl F HT FB FM' p P key FOUR fuel fuel2 sizes0 srt type fds SRT T S) as (perm & PM & SS & PL). clear S.
  set (g := [(rd, f)]). assert (G0 : g <> []) by discriminate. assert (GI : forall x, In x g -> set_input maxSize ns inc x) by (intros x [<-|[]]; exact SI).
  change [nt] with (map (fun x : reader * file => r_nt (fst x)) g) in PL. set (src := fun b => (0%nat, nth (Z.to_nat b) perm 0)) in PL.
  assert (NT : 0 < nt) by (clear - FOUR P; lia).
  destruct (set_life maxSize sort_set_rule srt outmsg g fds p ns nt inc src M1 M2 NS G0 GI PL sort_set_usable sort_set_good sort_set_label sort_set_copy sort_set_mem SRT h f0 maxSize' sizes' sizes P NT F FB0 M1' RK RUN)
    as (f' & rd' & W & SZ' & O & Q1 & Q2 & Q3 & WF & CF & CV).
  exists f', rd'. split; [exact W|]. split; [exact O|]. split; [exact Q1|]. split; [exact Q2|]. split; [exact Q3|]. split; [exact SZ'|]. split; [exact WF|].
  assert (FMT : r_format rd' = 5). { destruct (C40_header_round_trip_partial maxSize p h f0 f' nt ns maxSize' sizes' WF M1') as (rd2 & O2 & _ & _ & F5 & _). rewrite O in O2. assert (rd' = rd2) by congruence. congruence. }
  clear O W.
  match type of CF with forall x, In x h -> call_full ?s _ _ _ => pose (so := s); change s with so in CF end.
  assert (SB : forall b, file_bytes (fst (so b))) by (intros b; apply (source_bytes_ok maxSize g fds p ns nt inc src G0 GI PL b)).
  assert (RB : readable maxSize' rd' f').
  { constructor; rewrite ?Q1, ?Q2.
    - exact M2'.
    - exact F.
    - unfold has_traces, trace_at. rewrite SZ'. clear. lia.
    - rewrite FMT. discriminate.
    - intros a x A X. apply (history_bytes maxSize p h f0 f' nt ns _ sort_set_rule WF sort_set_usable sort_set_copy CF SB a (CV a A) x X).
    - intros a x A X. pose proof (history_full maxSize p h f0 f' nt ns _ sort_set_rule WF sort_set_usable sort_set_copy CF SB a (CV a A)) as H.
      destruct (so a) in H. destruct H as (_ & H & _). apply H. exact X. }
  assert (LEN : length perm = Z.to_nat nt) by (rewrite (Permutation_length PM); unfold zr, zrange; rewrite map_length; apply seq_length).
  (* what a trace of the output has *)
  assert (GE : forall b, 0 <= b < nt -> let a := nth (Z.to_nat b) perm 0 in 0 <= a < nt /\ let x := trace_geo rd' f' b in let y := header_geo (disk_header f ns a) a in
    g_il x = g_il y /\ g_xl x = g_xl y /\ g_off x = g_off y /\ g_ltn x = b /\
    (fine_coordinates f ns nt -> val (g_sx x) = val (g_sx y) /\ val (g_sy x) = val (g_sy y) /\ val (g_rx x) = val (g_rx y) /\ val (g_ry x) = val (g_ry y))).
  { intros b B a. assert (A : 0 <= a < nt) by (apply in_zr, (Permutation_in _ PM), nth_In; rewrite LEN; clear - B; lia). split; [exact A|].
    pose proof (history_full maxSize p h f0 f' nt ns _ sort_set_rule WF sort_set_usable sort_set_copy CF SB b (CV b B)) as H.
    unfold so, source_of, src in H. cbn [nth g snd] in H. fold a in H. destruct H as (_ & _ & _ & HI & _ & HC).
    assert (I : forall l, In l copied_ints -> int32_at (disk_header f' ns b) l = int32_at (disk_header f ns a) l) by (intros l L; destruct (sort_set_int l L) as (m & e & LK & ET & <-); apply (HI m e LK ET)).
    unfold trace_geo. rewrite Q1. unfold header_geo. cbn [g_sx g_sy g_rx g_ry g_il g_xl g_off g_ltn]. rewrite !I by (cbn; tauto). repeat (split; [reflexivity|]). intros WC.
    assert (RC : forall l, In l [73; 77; 81; 85] -> val (read_coordinate (disk_header f' ns b) l) = val (read_coordinate (disk_header f ns a) l)).
    { intros l L. destruct (WC a l A L) as (PS & n & N). assert (LC : In l copied_coordinates) by (clear - L; cbn in *; tauto). destruct (sort_set_coordinate l LC) as (m & e & LK & ET & EL & ES).
      destruct (HC m e LK ET) as (PS' & CE); rewrite ?ES, ?EL in *; [exact PS|]. rewrite N in CE.
      assert (LR : 1 <= l <= 237) by (clear - L; destruct L as [<-|[<-|[<-|[<-|[]]]]]; lia).
      rewrite (sixteenth_read _ l n PS' ltac:(rewrite int32_rd by (intros k K; rewrite <- Q1; apply (rb_header _ _ _ RB); [rewrite Q2; exact B|clear - K LR; lia]); apply rd32_range) CE).
      rewrite (sixteenth_read _ l n PS ltac:(rewrite int32_rd by (intros k K; apply FB); apply rd32_range) N). reflexivity. }
    rewrite !RC by (cbn; tauto). repeat split. }
  assert (TG : forall b, header_geo (disk_header f' ns b) b = trace_geo rd' f' b) by (intros b; unfold trace_geo; rewrite Q1; reflexivity).
  intros b B1 B2. rewrite !TG. assert (BB : 0 <= b < nt /\ 0 <= b + 1 < nt) by (clear - B1 B2; lia). destruct BB as (BA & BC). clear B1 B2.
  pose proof (readable_finite maxSize' rd' f' b RB ltac:(rewrite Q2; exact BA)) as FX. pose proof (readable_finite maxSize' rd' f' (b + 1) RB ltac:(rewrite Q2; exact BC)) as FX'.
  destruct (GE b BA) as (A & IL & XL & OF & LT & CO). destruct (GE (b + 1) BC) as (A' & IL' & XL' & OF' & LT' & CO'). cbv zeta in *.
  set (a := nth (Z.to_nat b) perm 0) in *. set (a' := nth (Z.to_nat (b + 1)) perm 0) in *.
  pose proof (geo_finite f ns FB a a) as FY. pose proof (geo_finite f ns FB a' a') as FY'.
  assert (ORD : ~ lex (keys type (header_geo (disk_header f ns a') a')) (keys type (header_geo (disk_header f ns a) a))).
  { assert (SN : forall (rel : Z -> Z -> Prop) l i, StronglySorted rel l -> (S i < length l)%nat -> rel (nth i l 0) (nth (S i) l 0)).
    { clear. intros rel l i SS. revert i. induction SS as [|x l SS IH FA]; intros i I; [cbn [length] in I; lia|]. destruct i as [|i].
      - cbn [nth]. rewrite Forall_forall in FA. apply FA, nth_In. cbn [length] in I. lia.
      - cbn [nth]. apply IH. cbn [length] in I. lia. }
    pose proof (SN _ perm (Z.to_nat b) SS ltac:(rewrite LEN; clear - BA BC; lia)) as X. cbv beta in X. fold a in X. replace (S (Z.to_nat b)) with (Z.to_nat (b + 1)) in X by (clear - BA; lia). exact X. }
  set (x := trace_geo rd' f' b) in *. set (x' := trace_geo rd' f' (b + 1)) in *. set (y := header_geo (disk_header f ns a) a) in *. set (y' := header_geo (disk_header f ns a') a') in *.
  clearbody x x' y y'. clear - CASE T IL XL OF LT CO IL' XL' OF' LT' CO' FX FX' FY FY' ORD.
  apply (keys_follow type x x' y y' (fine_coordinates f ns nt)); try assumption. rewrite LT, LT'. lia.
Qed.
