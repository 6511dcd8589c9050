(** Lemmas about sorting a file of a set. *)
From Coq Require Import Reals Lra Permutation Sorted.
From Flocq Require Import Core IEEE754.BinarySingleNaN.
From Verif Require Import Base DecompModel DecompSpec DecompProofs NumEncModel NumEncSpec NumEncProofs CharEncModel CharEncProofs LayoutModel LayoutProofs DataIOModel DataIOProofs
  RuleModel RuleProofs DoubleModel ParamModel ParamProofs HeaderProofs ScalarProofs FileSpec FileModel FileProofs WriteSpec WriteProofs RuleProperties ParamProperties ReadProofs OpenProofs FileProperties TraceProperties.
From Verif Require Import SortSpec SortModel SortProofs CompProofs SortProperties FlowModel FlowProofs FlowProperties CopySpec CopyProofs ExampleModel ExampleProofs SetFileModel SetFileSpec SetFileProofs SetOutProofs SetSortModel SetSortSpec.
Import ListNotations.
Open Scope Z_scope.

(** ---- the rules ---- *)
Lemma entries_usable r : full_rule r -> Forall pre_entry (translate r) -> usable r.
Proof.
  intros FR P. split; [exact FR|]. rewrite Forall_forall in P. intros m1 e1 a I1 A.
  destruct (P _ I1) as [E|(p1 & Q1 & E1 & S1)]; cbn [fst snd] in *; [rewrite E in A; destruct A|]. rewrite E1 in A.
  destruct (C27_fields_disjoint m1 m1 p1 p1 a a Q1 Q1 A A) as (B1 & B2 & _). split; [exact B1|]. split; [exact B2|].
  intros m2 e2 b I2 B. destruct (P _ I2) as [E|(p2 & Q2 & E2 & S2)]; cbn [fst snd] in *; [rewrite E in B; destruct B|]. rewrite E2 in B.
  destruct (C27_fields_disjoint m1 m2 p1 p2 a b Q1 Q2 A B) as (_ & _ & D).
  destruct D as [D|(D1 & [D2|(D2 & D3)])]; [left; exact D|right; split; [exact D1|left; exact D2]|right; split; [exact D1|right; split; [apply S1, D2|apply S2, D3]]].
Qed.
Lemma sort_usable : usable sort_rule.
Proof. apply predefined_usable. apply pre_new. Qed.
Lemma sort_good : good sort_rule. Proof. apply newRule_good. Qed.
Lemma sort_label : exists e, lookup 1 (translate sort_rule) = Some e /\ e_type e = MIndex.
Proof. eexists. split; [vm_compute; reflexivity|reflexivity]. Qed.
Lemma sort_glabel : exists e, lookup 2 (translate sort_rule) = Some e /\ e_type e = MIndex.
Proof. eexists. split; [vm_compute; reflexivity|reflexivity]. Qed.
Lemma sort_int m l : In (m, l) [(26, 189); (27, 193); (14, 37)] -> exists e, lookup m (translate sort_rule) = Some e /\ e_type e = MLong /\ e_loc e = l.
Proof. intros [E|[E|[E|[]]]]; injection E as <- <-; (eexists; split; [vm_compute; reflexivity|split; reflexivity]). Qed.
Lemma sort_float m l : In (m, l) [(20, 73); (21, 77); (22, 81); (23, 85)] -> exists e, lookup m (translate sort_rule) = Some e /\ e_type e = MFloat /\ e_loc e = l /\ e_scal e = 71.
Proof. intros [E|[E|[E|[E|[]]]]]; injection E as <- <-; (eexists; split; [vm_compute; reflexivity|repeat split; reflexivity]). Qed.
Definition sort_entries : list (Z * RuleModel.entry) := Eval vm_compute in translate sort_set_rule.
Lemma sort_entries_eq : translate sort_set_rule = sort_entries. Proof. vm_compute. reflexivity. Qed.
Lemma sort_set_usable : usable sort_set_rule.
Proof.
  apply entries_usable; [split; vm_compute; reflexivity|]. rewrite sort_entries_eq. unfold sort_entries.
  repeat (apply Forall_cons; [first [left; reflexivity|right; eexists; split; [reflexivity|split; [reflexivity|intros a A; cbn [scale_field] in A; first [contradiction|split; [reflexivity|exact A]]]]]|]). constructor.
Qed.
Lemma sort_set_good : good sort_set_rule. Proof. apply addRules_good; apply newRule_good. Qed.
Lemma sort_set_label : exists e, lookup 1 (translate sort_set_rule) = Some e /\ e_type e = MIndex.
Proof. eexists. split; [vm_compute; reflexivity|reflexivity]. Qed.
Lemma sort_set_copy : counts sort_set_rule MCopy <> 0. Proof. vm_compute. discriminate. Qed.
Lemma sort_set_mem : 0 <= paramMem sort_set_rule <= 100000000. Proof. vm_compute. split; discriminate. Qed.
Lemma sort_set_untouched x : 0 <= x < 240 -> ~ rewritten x -> untouched sort_set_rule x.
Proof.
  intros X N k e a I A B. apply N. clear N. rewrite sort_entries_eq in I. unfold sort_entries in I. unfold rewritten.
  repeat (destruct I as [I|I]; [injection I as <- <-; cbn [efields e_type e_loc e_scal In] in A; repeat (destruct A as [A|A]; [subst a; cbn [fst snd] in B; lia|]); destruct A|]). destruct I.
Qed.
Lemma sort_set_int l : In l copied_ints -> exists m e, lookup m (translate sort_set_rule) = Some e /\ e_type e = MLong /\ e_loc e = l.
Proof.
  intros [E|[E|[E|[E|[]]]]]; subst l; [exists 5|exists 14|exists 26|exists 27]; (eexists; split; [vm_compute; reflexivity|split; reflexivity]).
Qed.
Lemma sort_set_coordinate l : In l copied_coordinates -> exists m e, lookup m (translate sort_set_rule) = Some e /\ e_type e = MFloat /\ e_loc e = l /\ e_scal e = 71.
Proof.
  intros [E|[E|[E|[E|[E|[E|[]]]]]]]; subst l; [exists 20|exists 21|exists 22|exists 23|exists 24|exists 25]; (eexists; split; [vm_compute; reflexivity|repeat split; reflexivity]).
Qed.
Lemma sort_set_depth : exists e, lookup 19 (translate sort_set_rule) = Some e /\ e_type e = MFloat /\ e_loc e = 65 /\ e_scal e = 69.
Proof. eexists; split; [vm_compute; reflexivity|repeat split; reflexivity]. Qed.

(** ---- the rows ---- *)
Lemma number_spec off loff nf c il : forall n p, wf_param p -> p_rule p = sort_rule -> 0 <= loff -> loff + Z.of_nat n <= p_sz p ->
  (forall i, 0 <= i < Z.of_nat n -> in_u64 (off + loff + nth (Z.to_nat i) il 0) /\ in_u64 (nth (Z.to_nat i) il 0 * nf + c)) ->
  exists p', fold_left (fun op i => obind op (fun p => obind (setPrm (loff + i) 2 (VI (off + loff + nth (Z.to_nat i) il 0)) p) (setPrm (loff + i) 1 (VI (nth (Z.to_nat i) il 0 * nf + c))))) (zrange n) (Some p) = Some p' /\
  wf_param p' /\ p_rule p' = sort_rule /\ p_sz p' = p_sz p /\
  (forall i, 0 <= i < Z.of_nat n -> getPrm (loff + i) 2 p' = Some (VI (off + loff + nth (Z.to_nat i) il 0)) /\ getPrm (loff + i) 1 p' = Some (VI (nth (Z.to_nat i) il 0 * nf + c))) /\
  (forall i m, 0 <= i < p_sz p -> m <> 1 -> m <> 2 -> getPrm i m p' = getPrm i m p).
Proof.
  intros n p W RR K. destruct sort_label as (e1 & L1 & T1). destruct sort_glabel as (e2 & L2 & T2). induction n as [|n IH]; intros H B.
  - exists p. split; [reflexivity|]. split; [exact W|]. split; [exact RR|]. split; [reflexivity|]. split; [intros; lia|reflexivity].
  - rewrite zrange_S, fold_left_app. destruct IH as (q & -> & W1 & R1 & S1 & A1 & B1); [lia|intros; apply B; lia|]. cbn [fold_left obind]. destruct (B (Z.of_nat n) ltac:(lia)) as (U1 & U2).
    destruct (set_get q (loff + Z.of_nat n) 2 (VI (off + loff + nth (Z.to_nat (Z.of_nat n)) il 0)) e2 W1 ltac:(rewrite R1; exact L2) ltac:(lia) ltac:(rewrite T2; exact U1)) as (q1 & E1 & R2 & W2 & S2 & G2 & O2).
    rewrite E1. cbn [obind].
    destruct (set_get q1 (loff + Z.of_nat n) 1 (VI (nth (Z.to_nat (Z.of_nat n)) il 0 * nf + c)) e1 W2 ltac:(rewrite R2, R1; exact L1) ltac:(lia) ltac:(rewrite T1; exact U2)) as (q2 & E2 & R3 & W3 & S3 & G3 & O3).
    exists q2. split; [exact E2|]. split; [exact W3|]. split; [congruence|]. split; [congruence|]. split.
    + intros i I. destruct (Z.eq_dec i (Z.of_nat n)) as [->|NE].
      * split; [|exact G3]. rewrite O3 by (first [lia|congruence]). exact G2.
      * rewrite !O3 by (first [lia|intros Q; injection Q; lia]). rewrite !O2 by (first [lia|intros Q; injection Q; lia]). apply A1. lia.
    + intros i m I N1 N2. rewrite O3 by (first [lia|congruence]). rewrite O2 by (first [lia|congruence]). apply B1; assumption.
Qed.

(** ---- the coordinates are finite ---- *)
Lemma coordinate_value (f : file) (ns : Z) (FB : file_bytes f) a l : fin (read_coordinate (disk_header f ns a) l) /\
  val (read_coordinate (disk_header f ns a) l) = rn (val (parse_scalar (int16_at (disk_header f ns a) 71)) * IZR (int32_at (disk_header f ns a) l)).
Proof.
  unfold read_coordinate. set (h := disk_header f ns a). assert (HB : forall k, is_byte (h k)) by (intros; apply FB).
  assert (S : in_s16 (int16_at h 71)) by (rewrite int16_rd by apply HB; apply rd16_range). assert (I : in_s32 (int32_at h l)) by (rewrite int32_rd by (intros; apply HB); apply rd32_range).
  destruct (parse_value _ S) as (F1 & _ & B1). destruct (d_of_Z_exact (int32_at h l)) as (V2 & F2); [unfold in_s32 in I; change (2 ^ 53) with 9007199254740992; lia|].
  assert (IB : (IZR (-2147483648) <= IZR (int32_at h l) <= 2147483647)%R) by (unfold in_s32 in I; split; apply IZR_le; lia).
  destruct (dmul_spec (parse_scalar (int16_at h 71)) (d_of_Z (int32_at h l))) as (DV & DF).
  - rewrite V2. set (c := val (parse_scalar (int16_at h 71))) in *. set (i := IZR (int32_at h l)) in *.
    assert (AB : (Rabs (c * i) <= bpow radix2 50)%R).
    { rewrite Rabs_mult, (Rabs_pos_eq c) by lra. apply Rle_trans with (40000 * 2147483648)%R; [apply Rmult_le_compat; [lra|apply Rabs_pos|lra|apply Rabs_le; lra]|]. cbn. lra. }
    apply Rle_lt_trans with (bpow radix2 50); [|apply bpow_lt; lia]. apply abs_round_le_generic; [typeclasses eauto|typeclasses eauto| |exact AB].
    apply generic_format_bpow. unfold fx. cbn. lia.
  - rewrite V2 in DV. split; [unfold fin in *; rewrite DF; first [assumption|split; assumption|rewrite F1, F2; reflexivity]|exact DV].
Qed.
Lemma geo_finite (f : file) (ns : Z) (FB : file_bytes f) a n : finite_geo (header_geo (disk_header f ns a) n).
Proof. unfold finite_geo, header_geo. cbn [g_sx g_sy g_rx g_ry]. repeat split; apply (coordinate_value f ns FB a). Qed.

Lemma index_not_decoded rl m e1 e h v : lookup m rl = Some e1 -> e_type e1 = MIndex -> lookup m rl = Some e -> decode h 0 0 e = Some v -> False.
Proof. intros L1 T L D. rewrite L1 in L. injection L as <-. unfold decode in D. rewrite T in D. discriminate. Qed.

Section OneFile.
Context (maxSize ns nt : Z) (rd : reader) (f : file).
Context (M : 2 * (240 + 4 * ns) <= maxSize) (NSE : r_ns rd = ns) (NTE : r_nt rd = nt) (F : fits nt ns) (HT : has_traces f nt ns) (FB : file_bytes f) (FM : r_format rd <> 1).
(** The row of a trace. *)
Definition row (x : Z * Z) : geo * Z := (header_geo (disk_header f ns (snd x)) (snd x), fst x).
Lemma header_read_float p' i a m l : (forall m e v, lookup m (translate sort_rule) = Some e -> decode (disk_header f ns a) 0 0 e = Some v -> getPrm i m p' = Some v) ->
  In (m, l) [(20, 73); (21, 77); (22, 81); (23, 85)] -> getPrm i m p' = Some (VF (read_coordinate (disk_header f ns a) l)).
Proof.
  intros H I. destruct (sort_float m l I) as (e & L & T & EL & ES). apply (H m e _ L). unfold decode. rewrite T, EL, ES. rewrite !Z.add_0_l, !Z.sub_0_r. unfold read_coordinate.
  rewrite int16_rd by apply FB. rewrite int32_rd by (intros; apply FB). reflexivity.
Qed.
Lemma header_read_int p' i a m l : (forall m e v, lookup m (translate sort_rule) = Some e -> decode (disk_header f ns a) 0 0 e = Some v -> getPrm i m p' = Some v) ->
  In (m, l) [(26, 189); (27, 193); (14, 37)] -> getPrm i m p' = Some (VI (int32_at (disk_header f ns a) l)).
Proof.
  intros H I. destruct (sort_int m l I) as (e & L & T & EL). apply (H m e _ L). unfold decode. rewrite T, EL. rewrite !Z.add_0_l, !Z.sub_0_r.
  rewrite int32_rd by (intros; apply FB). reflexivity.
Qed.
Lemma int32_small h l : (forall k, is_byte (h k)) -> s64 (int32_at h l) = int32_at h l.
Proof. intros B. rewrite int32_rd by (intros; apply B). pose proof (rd32_range h (l - 1)) as Q. apply s64_id. unfold in_s32 in Q. unfold in_s64. lia. Qed.
Lemma row_read p' i a n : (forall m e v, lookup m (translate sort_rule) = Some e -> decode (disk_header f ns a) 0 0 e = Some v -> getPrm i m p' = Some v) ->
  getPrm i 1 p' = Some (VI a) -> getPrm i 2 p' = Some (VI n) -> in_s64 a -> in_s64 n -> sort_row p' i = Some (row (n, a)).
Proof.
  intros H G1 G2 A N. assert (HB : forall k, is_byte (disk_header f ns a k)) by (intros; apply FB). unfold sort_row, geo_at.
  rewrite (header_read_float p' i a 20 73 H), (header_read_float p' i a 21 77 H), (header_read_float p' i a 22 81 H), (header_read_float p' i a 23 85 H) by (cbn [In]; auto 10).
  rewrite (header_read_int p' i a 26 189 H), (header_read_int p' i a 27 193 H), (header_read_int p' i a 14 37 H) by (cbn [In]; auto 10).
  rewrite G1, G2. cbn [obind asD asZ asU]. rewrite !int32_small by exact HB. rewrite (s64_id a A), (s64_id n N). reflexivity.
Qed.
Context (p : nat) (P : (0 < p)%nat) (key : gkey).
Lemma nt_small : 0 <= nt /\ nt * 240 < two64.
Proof. destruct F as (F1 & F2 & F3 & _). split; [exact F2|]. assert (nt * 240 <= nt * (240 + 4 * ns)) by (apply Z.mul_le_mono_nonneg_l; lia). lia. Qed.
Lemma nt_u64 : in_u64 nt.
Proof. pose proof nt_small. unfold in_u64, two64 in *. lia. Qed.
Let fds := group_files key [(key, (rd, f))] p.
Lemma one_file r : (r < p)%nat -> fds r = [entry (Z.of_nat p) (Z.of_nat r) (key, nt) 0].
Proof.
  intros R. unfold fds, group_files. cbn [map fst snd]. rewrite NTE. pose proof nt_u64 as U. rewrite add_files_spec; [|lia|lia| |].
  - cbn [entries fst app]. unfold gsum at 1. cbn [filter map]. unfold group. cbn [filter]. unfold entry at 1. cbn [f_key fst]. unfold gkeqb. rewrite !Z.eqb_refl. reflexivity.
  - constructor; [exact U|constructor].
  - intros k. unfold gsum. cbn [filter fst]. destruct (gkeqb key k); cbn [map snd]; unfold zsum; cbn [fold_right]; unfold in_u64, two64 in *; lia.
Qed.
Lemma sz_nonneg r : (r < p)%nat -> 0 <= sz_of nt (Z.of_nat p) (Z.of_nat r).
Proof. intros R. pose proof nt_small as (N & _). unfold sz_of. assert (0 <= nt / Z.of_nat p) by (apply Z.div_pos; lia). destruct (_ <? _); lia. Qed.
Lemma one_lnt r : (r < p)%nat -> group_lnt fds r = sz_of nt (Z.of_nat p) (Z.of_nat r).
Proof.
  intros R. unfold group_lnt. rewrite (one_file r R). cbn [map]. unfold entry. cbn [f_ilst fst snd]. rewrite map_length. unfold zr, zrange. rewrite map_length, seq_length. pose proof (sz_nonneg r R). unfold zsum. cbn [fold_right]. lia.
Qed.
Lemma one_off r : (r <= p)%nat -> zsum (map (group_lnt fds) (seq 0 r)) = off_of nt (Z.of_nat p) (Z.of_nat r).
Proof.
  pose proof nt_small as (N & _). induction r as [|r IH]; intros R; [rewrite off_0 by lia; reflexivity|]. rewrite seq_S, map_app, zsum_app, IH by lia. cbn [map Nat.add]. rewrite one_lnt by lia.
  replace (Z.of_nat (S r)) with (Z.of_nat r + 1) by lia. rewrite off_step by lia. unfold zsum. cbn [fold_right]. lia.
Qed.
Lemma omap_all {A B} (h : A -> option B) (g : A -> B) l : (forall x, In x l -> h x = Some (g x)) -> omap h l = Some (map g l).
Proof. induction l as [|x l IH]; intros H; [reflexivity|]. cbn [omap map]. rewrite (H x (or_introl eq_refl)). cbn [obind]. rewrite IH by (intros; apply H; right; assumption). reflexivity. Qed.
Lemma nth_zr0 (g : Z -> Z) n i : 0 <= i < n -> nth (Z.to_nat i) (map g (zr n)) 0 = g i.
Proof.
  intros I. assert (L : (Z.to_nat i < length (zr n))%nat) by (unfold zr, zrange; rewrite map_length, seq_length; lia).
  rewrite (nth_indep _ 0 (g 0)) by (rewrite map_length; exact L). rewrite map_nth. f_equal. unfold zr, zrange in *. rewrite map_length, seq_length in L. rewrite (nth_indep _ 0 (Z.of_nat 0)) by (rewrite map_length, seq_length; exact L).
  rewrite map_nth, seq_nth by exact L. lia.
Qed.
Lemma rows_spec sizes r : (r < p)%nat -> group_rows maxSize sizes [(rd, f)] fds r = Some (map row (cache p [nt] r)).
Proof.
  intros R. unfold group_rows. rewrite (one_file r R), (one_lnt r R), (one_off r ltac:(lia)). set (off := off_of nt (Z.of_nat p) (Z.of_nat r)). set (sz := sz_of nt (Z.of_nat p) (Z.of_nat r)).
  pose proof (sz_nonneg r R) as SZ. fold sz in SZ. unfold entry. cbn [map f_ilst List.combine fst snd]. fold off. fold sz. set (il := map (fun i => off + i) (zr sz)).
  assert (LI : length il = Z.to_nat sz) by (unfold il, zr, zrange; rewrite !map_length, seq_length; reflexivity).
  assert (OB : forall i, 0 <= i < sz -> 0 <= off + i < nt) by (intros i I; apply off_sz_bound; [apply nt_u64|lia|lia|apply in_zr; exact I]).
  assert (NI : forall i, 0 <= i < sz -> nth (Z.to_nat i) il 0 = off + i) by (intros i I; unfold il; apply (nth_zr0 (fun i => off + i)); exact I).
  assert (OFF : 0 <= off <= nt).
  { pose proof nt_small as (N & _). unfold off. rewrite <- (off_0 nt (Z.of_nat p)) at 1 by lia. rewrite <- (off_p nt (Z.of_nat p)) at 4 by lia. split; apply off_mono; lia. }
  pose proof nt_small as (N0 & N1).
  cbn [cache_files]. unfold readTraceNonContiguous. rewrite NSE. destruct sort_usable as (FR & FO).
  destruct (read_spec maxSize (sizes r 0%nat) (r_format rd) ns nt (Listed il) None (Some (newParam sort_rule sz)) 0 f M F) as (t' & q' & RE & _ & _ & _ & B).
  { cbn [tvalid]. apply Forall_forall. intros x X. unfold il in X. apply in_map_iff in X. destruct X as (i & <- & I). apply in_zr in I. apply OB. exact I. }
  { exact HT. } { intros; apply FB. } { exact FM. } { right; discriminate. }
  { intros q Q. injection Q as <-. split; [apply newParam_wf; [apply sort_good|exact SZ]|]. split; [exact FR|]. split; [exact FO|]. split; [apply sort_label|]. cbn [tcount p_sz newParam]. lia. }
  rewrite RE. cbn [obind]. destruct (B _ eq_refl) as (sq & -> & WQ & RQ & SQ & DQ & _). clear B. cbn [obind tcount tpos p_rule p_sz newParam] in *.
  unfold number_rows. rewrite zr_nat.
  destruct (number_spec off 0 (Z.of_nat 1) (Z.of_nat 0) il (length il) sq WQ RQ ltac:(lia) ltac:(lia)) as (q & EQ & WQ2 & RQ2 & SQ2 & GN & GO).
  { intros i I. rewrite NI by lia. specialize (OB i ltac:(lia)). unfold in_u64, two64 in *. lia. }
  cbn [length] in *. rewrite EQ. cbn [obind]. rewrite cache_one by (first [apply nt_u64|exact R]). fold off. fold sz. rewrite map_map. apply omap_all. intros i I. apply in_zr in I.
  destruct (GN i ltac:(lia)) as (G2 & G1). rewrite NI in G1, G2 by lia. rewrite Z.add_0_l in G1, G2. specialize (OB i I).
  replace (2 * off + i) with (off + 0 + (off + i)) by lia. apply row_read.
  - intros m e v L D. assert (NM : m <> 1 /\ m <> 2).
    { destruct sort_label as (e1 & L1 & T1). destruct sort_glabel as (e2 & L2 & T2). split; intros EM; rewrite EM in L; [exact (index_not_decoded _ _ _ _ _ _ L1 T1 L D)|exact (index_not_decoded _ _ _ _ _ _ L2 T2 L D)]. }
    rewrite GO by (first [lia|apply NM]). specialize (DQ i m e v ltac:(lia) L). rewrite Z.add_0_r, NI in DQ by exact I. apply DQ. exact D.
  - rewrite G1. f_equal. f_equal. lia.
  - exact G2.
  - unfold in_s64, two64 in *. lia.
  - unfold in_s64, two64 in *. lia.
Qed.

(** ---- the sort ---- *)
Let C := all p (cache p [nt]).
Definition of_trace (a : Z) : geo := header_geo (disk_header f ns a) a.
Lemma snd_C : map snd C = zr nt. Proof. apply C55_single_file_numbers; [apply nt_u64|exact P]. Qed.
Lemma fst_C : StronglySorted Z.lt (map fst C). Proof. apply C55_single_file_numbers; [apply nt_u64|exact P]. Qed.
Lemma C_inj x y : In x C -> In y C -> snd x = snd y -> x = y.
Proof.
  intros X Y E. assert (ND : NoDup (map snd C)) by (rewrite snd_C; unfold zr; apply nodup_zrange). revert X Y E ND. generalize C. clear. intros l. induction l as [|c l IH]; intros X Y E ND; [destruct X|]. cbn [map] in ND. inversion ND as [|? ? N1 N2]; subst.
  destruct X as [<-|X], Y as [<-|Y]; [reflexivity| | |apply IH; assumption]; exfalso; apply N1; [rewrite E|rewrite <- E]; apply in_map; assumption.
Qed.
Lemma row_total type : 35 <= type <= 43 -> strict_total (fun x => In x (map row C)) (by_type type).
Proof.
  intros T. set (G := fun a => exists c, In c C /\ a = of_trace (snd c)).
  destruct (C50_orders_total type G T) as (T1 & T2 & T3).
  { intros a (c & _ & ->). apply geo_finite, FB. }
  { intros a b (c & _ & ->) (d & _ & ->) E. cbn [of_trace header_geo g_ltn] in E. unfold of_trace, header_geo in E. cbn [g_ltn] in E. rewrite E. reflexivity. }
  assert (IG : forall x, In x (map row C) -> G (fst x)) by (intros x X; apply in_map_iff in X; destruct X as (c & <- & X); exists c; split; [exact X|reflexivity]).
  unfold by_type. split; [intros x X; apply T1, IG, X|]. split; [intros x y z X Y Z; apply T2; apply IG; assumption|].
  intros x y X Y A B. pose proof (T3 _ _ (IG x X) (IG y Y) A B) as E. apply in_map_iff in X. destruct X as (c & <- & X). apply in_map_iff in Y. destruct Y as (d & <- & Y).
  assert (ES : snd c = snd d) by (apply (f_equal g_ltn) in E; exact E). rewrite (C_inj c d X Y ES). reflexivity.
Qed.
Lemma row_nodup : NoDup (map row C).
Proof.
  assert (ND : NoDup (map snd C)) by (rewrite snd_C; unfold zr; apply nodup_zrange). revert ND. generalize C. clear. intros l. induction l as [|c l IH]; intros ND; [constructor|]. cbn [map] in *. inversion ND as [|? ? N1 N2]; subst.
  constructor; [|apply IH; exact N2]. intros X. apply in_map_iff in X. destruct X as (d & E & D). apply N1. apply (f_equal (fun x => g_ltn (fst x))) in E. cbn in E. rewrite <- E. apply in_map. exact D.
Qed.
Lemma row_apart : told_apart snd (map row C).
Proof.
  intros x y X Y E. apply in_map_iff in X. destruct X as (c & <- & X). apply in_map_iff in Y. destruct Y as (d & <- & Y). cbn [row snd] in E. f_equal.
  revert X Y. pose proof fst_C as SS. revert SS. generalize C. clear -E. intros l. induction l as [|a l IH]; intros SS X Y; [destruct X|]. cbn [map] in SS. inversion SS as [|? ? S1 S2]; subst. rewrite Forall_forall in S2.
  destruct X as [<-|X], Y as [<-|Y]; [reflexivity| | |apply IH; assumption]; exfalso; [specialize (S2 _ (in_map fst _ _ Y))|specialize (S2 _ (in_map fst _ _ X))]; lia.
Qed.
Lemma all_at {A} q (d : nat -> list A) r j : (r < q)%nat -> (j < length (d r))%nat -> nth_error (all q d) (length (all r d) + j) = nth_error (d r) j.
Proof.
  intros R J. induction q as [|q IH]; [lia|]. rewrite all_S. destruct (Nat.eq_dec r q) as [->|N].
  - rewrite nth_error_app2 by lia. f_equal. lia.
  - rewrite nth_error_app1; [apply IH; lia|]. assert (E : forall k, (r < k)%nat -> (length (all r d) + length (d r) <= length (all k d))%nat).
    { clear. induction k as [|k IH]; intros K; [lia|]. rewrite all_S, app_length. destruct (Nat.eq_dec r k) as [->|N]; [lia|]. specialize (IH ltac:(lia)). lia. }
    specialize (E q ltac:(lia)). lia.
Qed.
Lemma all_same_length {A B} (d : nat -> list A) (e : nat -> list B) : forall r, (forall q, (q < r)%nat -> length (d q) = length (e q)) -> length (all r d) = length (all r e).
Proof. induction r as [|r IH]; intros H; [reflexivity|]. rewrite !all_S, !app_length, IH, (H r) by (try lia; intros; apply H; lia). reflexivity. Qed.
Context (FOUR : 4 * Z.of_nat p <= nt).
Lemma sz_four r : (r < p)%nat -> 4 <= sz_of nt (Z.of_nat p) (Z.of_nat r).
Proof. intros R. unfold sz_of. assert (4 <= nt / Z.of_nat p) by (apply Z.div_le_lower_bound; lia). destruct (_ <? _); lia. Qed.
Lemma cache_length r : (r < p)%nat -> length (cache p [nt] r) = Z.to_nat (sz_of nt (Z.of_nat p) (Z.of_nat r)).
Proof. intros R. rewrite cache_one by (first [apply nt_u64|exact R]). unfold zr, zrange. rewrite !map_length, seq_length. reflexivity. Qed.
Let rows r := nth r (map (fun r => map row (cache p [nt] r)) (seq 0 p)) [].
Lemma rows_at r : (r < p)%nat -> rows r = map row (cache p [nt] r).
Proof. intros R. unfold rows. rewrite (nth_indep _ [] ((fun r => map row (cache p [nt] r)) 0%nat)) by (rewrite map_length, seq_length; exact R). rewrite (map_nth (fun r => map row (cache p [nt] r))), seq_nth by exact R. reflexivity. Qed.
Lemma rows_all : all p rows = map row C.
Proof. rewrite (all_ext p rows (fun r => map row (cache p [nt] r)) rows_at). apply all_map. Qed.
Lemma rows_length r : (r < p)%nat -> length (rows r) = Z.to_nat (sz_of nt (Z.of_nat p) (Z.of_nat r)).
Proof. intros R. rewrite rows_at, map_length by exact R. apply cache_length. exact R. Qed.
Lemma rows_enough : existsb (fun r => Nat.ltb (length (rows r)) 3) (seq 0 p) = false.
Proof.
  apply not_true_iff_false. intros E. apply existsb_exists in E. destruct E as (r & R & E). apply in_seq in R. apply Nat.ltb_lt in E. rewrite rows_length in E by lia. pose proof (sz_four r ltac:(lia)). lia.
Qed.
Lemma sort_set_eq fuel fuel2 sizes srt type : sort_set fuel fuel2 maxSize sizes srt type [(rd, f)] fds p =
  obind (option_map snd (sort_metadata fuel fuel2 srt (by_type type) snd no_row p rows)) (fun pos =>
  obind (omap (fun r => hand_olst 0 (fds r) (pos r)) (seq 0 p)) (fun l => Some (fun r => nth r l []))).
Proof.
  unfold sort_set. rewrite (omap_all _ (fun r => map row (cache p [nt] r))) by (intros r R; apply in_seq in R; apply rows_spec; lia). cbn [obind]. unfold sort_positions. change (existsb _ _) with (existsb (fun r => Nat.ltb (length (rows r)) 3) (seq 0 p)). rewrite rows_enough. reflexivity.
Qed.
Definition one_fd (final : list Z) (r : nat) : fdesc := mkFd key nt (map (fun i => off_of nt (Z.of_nat p) (Z.of_nat r) + i) (zr (sz_of nt (Z.of_nat p) (Z.of_nat r)))) final.
Lemma handed fuel fuel2 srt type out final : std_sort srt -> 35 <= type <= 43 -> sort_metadata fuel fuel2 srt (by_type type) snd no_row p rows = Some (out, final) ->
  (forall r, (r < p)%nat -> length (final r) = Z.to_nat (sz_of nt (Z.of_nat p) (Z.of_nat r))) /\
  omap (fun r => hand_olst 0 (fds r) (final r)) (seq 0 p) = Some (map (fun r => [one_fd (final r) r]) (seq 0 p)).
Proof.
  intros S T H. destruct (C55_final_places _ srt (by_type type) snd no_row p rows fuel fuel2 out final S P) as (_ & _ & L); try assumption.
  { intros r R. rewrite rows_length by exact R. pose proof (sz_four r R). lia. }
  { rewrite rows_all. apply total_weak, row_total, T. }
  { rewrite rows_all, map_map. exact fst_C. }
  assert (LN : forall r, (r < p)%nat -> length (final r) = Z.to_nat (sz_of nt (Z.of_nat p) (Z.of_nat r))) by (intros r R; rewrite (L r R); apply rows_length; exact R). split; [exact LN|].
  apply omap_all. intros r R. apply in_seq in R. rewrite one_file by lia. cbn [hand_olst]. unfold entry. cbn [f_olst f_ilst f_key f_nt fst snd]. rewrite map_length. assert (LZ : length (zr (sz_of nt (Z.of_nat p) (Z.of_nat r))) = length (final r)) by (unfold zr, zrange; rewrite map_length, seq_length, (LN r) by lia; reflexivity).
  rewrite LZ. cbn [Nat.add]. rewrite Nat.leb_refl. cbn [obind skipn]. rewrite firstn_all. reflexivity.
Qed.
Lemma sort_defined sizes srt type : std_sort srt -> 35 <= type <= 43 ->
  exists n, forall fuel, (n <= fuel)%nat -> exists n2, forall fuel2, (n2 <= fuel2)%nat -> exists fds', sort_set fuel fuel2 maxSize sizes srt type [(rd, f)] fds p = Some fds'.
Proof.
  intros S T. destruct (C53_terminates _ srt (by_type type) snd no_row p rows S P) as (n & H).
  { rewrite rows_all. apply row_total, T. } { rewrite rows_all. apply row_nodup. } { rewrite rows_all. apply row_apart. }
  exists n. intros fuel FU. destruct (H fuel FU) as (n2 & H2). exists n2. intros fuel2 FU2. destruct (H2 fuel2 FU2) as ((out, final) & E). rewrite sort_set_eq, E. cbn [option_map obind snd].
  destruct (handed _ _ _ _ _ _ S T E) as (_ & ->). cbn [obind]. eauto.
Qed.
Lemma sort_result fuel fuel2 sizes srt type fds' : std_sort srt -> 35 <= type <= 43 -> sort_set fuel fuel2 maxSize sizes srt type [(rd, f)] fds p = Some fds' ->
  exists perm, Permutation perm (zr nt) /\ StronglySorted (fun a b => ~ lex (keys type (of_trace b)) (keys type (of_trace a))) perm /\
  placed p nt [nt] fds' (fun b => (0%nat, nth (Z.to_nat b) perm 0)).
Proof.
  intros S T H. rewrite sort_set_eq in H. destruct (sort_metadata _ _ _ _ _ _ _ _) as [(out, final)|] eqn:E; [|discriminate]. cbn [option_map obind snd] in H.
  destruct (handed _ _ _ _ _ _ S T E) as (LN & HO). rewrite HO in H. cbn [obind] in H. injection H as <-.
  assert (FR : forall r, (r < p)%nat -> (4 <= length (rows r))%nat) by (intros r R; rewrite rows_length by exact R; pose proof (sz_four r R); lia).
  destruct (C55_final_places _ srt (by_type type) snd no_row p rows fuel fuel2 out final S P FR) as (FP & PF & _); try assumption.
  { rewrite rows_all. apply total_weak, row_total, T. } { rewrite rows_all, map_map. exact fst_C. }
  destruct (C52_sorted_permutation _ srt (by_type type) snd no_row p rows fuel fuel2 out final S P FR) as (PO & SO & _); try assumption.
  { rewrite rows_all. apply total_weak, row_total, T. } { rewrite rows_all. apply row_apart. }
  assert (LC : length C = Z.to_nat nt) by (rewrite <- (map_length snd), snd_C; unfold zr, zrange; rewrite map_length, seq_length; reflexivity). pose proof nt_small as (N0 & _).
  assert (LA : length (all p rows) = Z.to_nat nt) by (rewrite rows_all, map_length; exact LC). rewrite LA, Z2Nat.id in PF by exact N0. rewrite rows_all in PO.
  set (perm := map (fun x : geo * Z => g_ltn (fst x)) (all p out)). exists perm. split; [|split].
  - unfold perm. rewrite <- snd_C. rewrite (Permutation_map (fun x : geo * Z => g_ltn (fst x)) (Permutation_sym PO)), map_map. apply Permutation_refl.
  - assert (ROW : forall x, In x (all p out) -> fst x = of_trace (g_ltn (fst x))).
    { intros x X. apply (Permutation_in _ (Permutation_sym PO)) in X. apply in_map_iff in X. destruct X as (c & <- & _). reflexivity. }
    unfold perm. clear -SO ROW T FB. unfold sorted in SO. induction SO as [|x l SS IH Q]; [constructor|]. cbn [map]. constructor; [apply IH; intros; apply ROW; right; assumption|].
    rewrite Forall_forall in *. intros b B K. apply in_map_iff in B. destruct B as (y & <- & Y). specialize (Q y Y). unfold by_type in Q. rewrite <- (ROW x) in K by (left; reflexivity). rewrite <- (ROW y) in K by (right; exact Y).
    apply (C50_orders_compare_keys type (fst y) (fst x) T) in K; [congruence| |]; [rewrite (ROW y) by (right; exact Y)|rewrite (ROW x) by (left; reflexivity)]; apply geo_finite, FB.
  - assert (AT : forall r, (r < p)%nat -> nth r (map (fun r => [one_fd (final r) r]) (seq 0 p)) [] = [one_fd (final r) r]).
    { intros r R. rewrite (nth_indep _ [] ((fun r => [one_fd (final r) r]) 0%nat)) by (rewrite map_length, seq_length; exact R). rewrite (map_nth (fun r => [one_fd (final r) r])), seq_nth by exact R. reflexivity. }
    assert (ND : NoDup (all p final)) by (apply (Permutation_NoDup (Permutation_sym PF)); unfold zr; apply nodup_zrange).
    constructor; cbv beta.
    + intros r R. rewrite AT by exact R. reflexivity.
    + intros r k R K. cbn [length] in K. assert (k = 0%nat) as -> by lia. rewrite AT by exact R. cbn [nth one_fd f_ilst f_olst].
      assert (LI : length (map (fun i => off_of nt (Z.of_nat p) (Z.of_nat r) + i) (zr (sz_of nt (Z.of_nat p) (Z.of_nat r)))) = Z.to_nat (sz_of nt (Z.of_nat p) (Z.of_nat r))) by (unfold zr, zrange; rewrite !map_length, seq_length; reflexivity).
      rewrite LI. split; [apply LN; exact R|]. split; [apply (nodup_rank p final r ND R)|]. intros j J.
      assert (SZJ : 0 <= Z.of_nat j < sz_of nt (Z.of_nat p) (Z.of_nat r)) by lia.
      assert (NJ : nth j (map (fun i => off_of nt (Z.of_nat p) (Z.of_nat r) + i) (zr (sz_of nt (Z.of_nat p) (Z.of_nat r)))) 0 = off_of nt (Z.of_nat p) (Z.of_nat r) + Z.of_nat j).
      { rewrite <- (Nat2Z.id j) at 1. apply (nth_zr0 (fun i => off_of nt (Z.of_nat p) (Z.of_nat r) + i)). exact SZJ. }
      rewrite NJ. assert (JF : (j < length (final r))%nat) by (rewrite (LN r R); exact J). pose proof (nth_error_nth' _ 0 JF) as NF.
      assert (FI : In (nth j (final r) 0) (zr nt)) by (apply (Permutation_in _ PF), all_in; exists r; split; [exact R|apply nth_In; exact JF]). apply in_zr in FI. split; [exact FI|].
      split; [apply off_sz_bound; [apply nt_u64|lia|lia|apply in_zr; exact SZJ]|].
      assert (RJ : nth_error (rows r) j = Some (row (2 * off_of nt (Z.of_nat p) (Z.of_nat r) + Z.of_nat j, off_of nt (Z.of_nat p) (Z.of_nat r) + Z.of_nat j))).
      { rewrite rows_at, cache_one by (first [apply nt_u64|exact R]). rewrite map_map. refine (map_nth_error (fun x => row (2 * off_of nt (Z.of_nat p) (Z.of_nat r) + x, off_of nt (Z.of_nat p) (Z.of_nat r) + x)) j (zr (sz_of nt (Z.of_nat p) (Z.of_nat r))) _).
        unfold zr, zrange. refine (map_nth_error Z.of_nat j (seq 0 (Z.to_nat (sz_of nt (Z.of_nat p) (Z.of_nat r)))) _). rewrite (nth_error_nth' _ 0%nat) by (rewrite seq_length; exact J). rewrite seq_nth by exact J. reflexivity. }
      assert (SL : forall q, (q < r)%nat -> length (rows q) = length (final q)) by (intros q Q; rewrite rows_length, LN by lia; reflexivity).
      pose proof (all_at p rows r j R ltac:(rewrite rows_length by exact R; exact J)) as A1. rewrite RJ, (all_same_length rows final r SL) in A1.
      pose proof (all_at p final r j R JF) as A2. rewrite NF in A2. destruct (FP _ _ A1) as (q & Q1 & Q2). rewrite A2 in Q1. injection Q1 as Q1. rewrite Q1, Nat2Z.id. f_equal.
      apply nth_error_nth. unfold perm. rewrite nth_error_map, Q2. reflexivity.
    + intros b B. assert (IB : In b (all p final)) by (apply (Permutation_in _ (Permutation_sym PF)), in_zr; exact B). apply all_in in IB. destruct IB as (r & R & IB). apply (In_nth _ _ 0) in IB. destruct IB as (j & J & E2).
      exists r, 0%nat, j. split; [exact R|]. split; [cbn; lia|]. rewrite AT by exact R. cbn [nth one_fd f_ilst f_olst]. split; [|exact E2]. rewrite map_length. unfold zr, zrange. rewrite map_length, seq_length, <- (LN r R). exact J.
Qed.
End OneFile.

(** ---- one scale factor for all traces: the order of the numbers in the headers ---- *)
Definition agree (x y x' y' : R) : Prop := ((x < y)%R <-> (x' < y')%R) /\ (x = y <-> x' = y').
Lemma agree_mono (g k : Z -> R) (D : Z -> Prop) : (forall i j, D i -> D j -> i < j -> (g i < g j)%R) -> (forall i j, D i -> D j -> i < j -> (k i < k j)%R) ->
  forall i j, D i -> D j -> agree (g i) (g j) (k i) (k j).
Proof.
  intros G K i j I J. destruct (Z.lt_trichotomy i j) as [L|[->|L]].
  - specialize (G i j I J L). specialize (K i j I J L). unfold agree. lra.
  - unfold agree. lra.
  - specialize (G j i J I L). specialize (K j i J I L). unfold agree. lra.
Qed.
Lemma agree_refl x y : agree x y x y. Proof. unfold agree. tauto. Qed.
Lemma lex_cons x y x' y' l m l' m' : agree x y x' y' -> (lex l m <-> lex l' m') -> (lex (x :: l) (y :: m) <-> lex (x' :: l') (y' :: m')).
Proof. intros (A & B) H. cbn [lex]. tauto. Qed.
Lemma lex_nil : lex [] [] <-> lex [] []. Proof. tauto. Qed.
Lemma scaled_mono c i j : (/ 40000 <= c <= 40000)%R -> in_s32 i -> in_s32 j -> i < j -> (rn (c * IZR i) < rn (c * IZR j))%R.
Proof.
  intros C I J L. destruct (rn_error (c * IZR i)) as (e1 & n1 & E1 & N1 & ->). destruct (rn_error (c * IZR j)) as (e2 & n2 & E2 & N2 & ->).
  assert (SM : forall z e, in_s32 z -> (Rabs e <= bpow radix2 (-53))%R -> (- (1/4) <= IZR z * e <= 1/4)%R).
  { intros z e Z0 E. apply Rabs_le_inv. rewrite Rabs_mult. assert (AZ : (Rabs (IZR z) <= 2147483648)%R) by (unfold in_s32 in Z0; apply Rabs_le; assert (Q1 : (IZR (-2147483648) <= IZR z)%R) by (apply IZR_le; lia); assert (Q2 : (IZR z <= IZR 2147483648)%R) by (apply IZR_le; lia); lra).
    apply Rle_trans with (2147483648 * bpow radix2 (-53))%R; [apply Rmult_le_compat; try apply Rabs_pos; assumption|]. cbn. lra. }
  pose proof (SM i e1 I E1) as S1. pose proof (SM j e2 J E2) as S2. assert (ET : (bpow radix2 (-1075) <= bpow radix2 (-30))%R) by (apply bpow_le; lia).
  assert (B30 : (bpow radix2 (-30) = / 1073741824)%R) by (cbn; lra). apply Rabs_le_inv in N1. apply Rabs_le_inv in N2.
  assert (DJ : (IZR j - IZR i >= 1)%R) by (rewrite <- minus_IZR; apply Rle_ge, IZR_le; lia).
  assert (P : (c * (IZR j - IZR i + IZR j * e2 - IZR i * e1) >= / 40000 * (1/2))%R) by (apply Rle_ge, Rmult_le_compat; lra).
  replace (c * IZR j * (1 + e2) + n2)%R with (c * IZR i * (1 + e1) + (c * (IZR j - IZR i + IZR j * e2 - IZR i * e1) + n2))%R by ring. lra.
Qed.
Lemma factor_pos s : (0 < factor s)%R.
Proof. unfold factor. destruct (Z.eqb_spec s 0); [lra|]. destruct (Z.ltb_spec 0 s); [apply IZR_lt; assumption|]. apply Rinv_0_lt_compat, IZR_lt. lia. Qed.
Section Headers.
Context (f : file) (ns : Z) (FB : file_bytes f) (s : Z).
Lemma int32_bounds a l : in_s32 (int32_at (disk_header f ns a) l).
Proof. rewrite int32_rd by (intros; apply FB). apply rd32_range. Qed.
Lemma fin_ext x : fin x -> ext x = val x. Proof. destruct x; try reflexivity; discriminate. Qed.
Lemma coordinate_agree a b l : int16_at (disk_header f ns a) 71 = s -> int16_at (disk_header f ns b) 71 = s ->
  agree (ext (read_coordinate (disk_header f ns a) l)) (ext (read_coordinate (disk_header f ns b) l)) (coordinate (disk_header f ns a) l 71) (coordinate (disk_header f ns b) l 71).
Proof.
  intros A B. destruct (coordinate_value f ns FB a l) as (FA & VA). destruct (coordinate_value f ns FB b l) as (FB' & VB). rewrite (fin_ext _ FA), (fin_ext _ FB'), VA, VB. unfold coordinate. rewrite A, B.
  assert (S : in_s16 s) by (rewrite <- A, int16_rd by apply FB; apply rd16_range). destruct (parse_value s S) as (_ & _ & CB).
  apply (agree_mono (fun i => rn (val (parse_scalar s) * IZR i)) (fun i => IZR i * factor s)%R in_s32); [intros; apply scaled_mono; assumption| |apply int32_bounds|apply int32_bounds].
  intros i j _ _ L. apply Rmult_lt_compat_r; [apply factor_pos|apply IZR_lt; exact L].
Qed.
Lemma stored_value a : 0 <= int32_at (disk_header f ns a) 37 -> stored (header_geo (disk_header f ns a) a) = IZR (int32_at (disk_header f ns a) 37).
Proof.
  intros O. pose proof (int32_bounds a 37) as B. unfold stored, header_geo. cbn [g_off]. rewrite u64_id by (unfold in_u64, in_s32, two64 in *; lia).
  destruct (d_of_Z_exact (int32_at (disk_header f ns a) 37)) as (V & F); [unfold in_s32 in B; change (2 ^ 53) with 9007199254740992; lia|]. rewrite (fin_ext _ F). exact V.
Qed.
Lemma header_lex type a b : In type [35; 37; 39; 41; 43] ->
  int16_at (disk_header f ns a) 71 = s -> int16_at (disk_header f ns b) 71 = s -> 0 <= int32_at (disk_header f ns a) 37 -> 0 <= int32_at (disk_header f ns b) 37 ->
  (lex (keys type (header_geo (disk_header f ns a) a)) (keys type (header_geo (disk_header f ns b) b)) <-> lex (header_keys type (disk_header f ns a) a) (header_keys type (disk_header f ns b) b)).
Proof.
  intros T A B OA OB. pose proof (fun l => coordinate_agree a b l A B) as CA. pose proof (stored_value a OA) as SA. pose proof (stored_value b OB) as SB.
  destruct T as [<-|[<-|[<-|[<-|[<-|[]]]]]]; unfold keys, header_keys; cbn [app]; rewrite ?SA, ?SB; unfold header_geo; cbn [g_sx g_sy g_rx g_ry g_il g_xl g_ltn];
    repeat (apply lex_cons; [first [apply CA|apply agree_refl]|]); apply lex_nil.
Qed.
End Headers.
