(** Lemmas about sorting several files on one process. *)
From Coq Require Import Reals Lra Permutation Sorted.
From Flocq Require Import Core IEEE754.BinarySingleNaN.
From Verif Require Import Base DecompModel DecompSpec DecompProofs NumEncModel NumEncSpec NumEncProofs CharEncModel CharEncProofs LayoutModel LayoutProofs DataIOModel DataIOProofs
  RuleModel RuleProofs DoubleModel ParamModel ParamProofs HeaderProofs ScalarProofs FileSpec FileModel FileProofs WriteSpec WriteProofs RuleProperties ParamProperties ReadProofs OpenProofs FileProperties TraceProperties.
From Verif Require Import SortSpec SortModel SortProofs CompProofs SortProperties FlowModel FlowProofs FlowProperties CopySpec CopyProofs ExampleModel ExampleProofs SetFileModel SetFileSpec SetFileProofs SetOutProofs SetSortModel SetSortSpec SetSortProofs MultiSortSpec.
Import ListNotations.
Open Scope Z_scope.

Lemma locate_all : forall nts k, Forall (fun n => 0 <= n) nts -> map (locate k nts) (zr (zsum nts)) = traces_from k nts.
Proof.
  induction nts as [|n nts IH]; intros k F; [reflexivity|]. inversion F as [|? ? F1 F2]; subst. change (zsum (n :: nts)) with (n + zsum nts). cbn [traces_from].
  assert (0 <= zsum nts) by (clear -F2; induction F2; [cbn; lia|unfold zsum in *; cbn [fold_right]; lia]). rewrite zr_app, map_app, map_map by lia. f_equal.
  - apply map_ext_in. intros b B. apply in_zr in B. cbn [locate]. replace (b <? n) with true by lia. reflexivity.
  - rewrite <- IH by exact F2. apply map_ext_in. intros b B. apply in_zr in B. cbn [locate]. replace (n + b <? n) with false by lia. f_equal. lia.
Qed.
Lemma nth_slice {A} (l : list A) d : forall o n a, (a < n)%nat -> nth a (firstn n (skipn o l)) d = nth (o + a) l d.
Proof.
  intros o n a L. assert (E : nth (o + a) l d = nth a (skipn o l) d).
  { revert l. induction o as [|o IH]; intros l; [reflexivity|]. destruct l as [|x l]; [cbn; destruct a; reflexivity|]. apply IH. }
  rewrite E. generalize (skipn o l). clear E l o. revert a L. induction n as [|n IH]; intros a L l; [lia|]. destruct l as [|x l]; [reflexivity|]. destruct a as [|a]; [reflexivity|]. cbn [firstn nth]. apply IH. lia.
Qed.
Lemma number_spec2 off loff nf c il : forall n p, wf_param p -> p_rule p = sort_rule -> 0 <= loff -> loff + Z.of_nat n <= p_sz p ->
  (forall i, 0 <= i < Z.of_nat n -> in_u64 (off + loff + nth (Z.to_nat i) il 0) /\ in_u64 (nth (Z.to_nat i) il 0 * nf + c)) ->
  exists p', fold_left (fun op i => obind op (fun p => obind (setPrm (loff + i) 2 (VI (off + loff + nth (Z.to_nat i) il 0)) p) (setPrm (loff + i) 1 (VI (nth (Z.to_nat i) il 0 * nf + c))))) (zrange n) (Some p) = Some p' /\
  wf_param p' /\ p_rule p' = sort_rule /\ p_sz p' = p_sz p /\
  (forall i, 0 <= i < Z.of_nat n -> getPrm (loff + i) 2 p' = Some (VI (off + loff + nth (Z.to_nat i) il 0)) /\ getPrm (loff + i) 1 p' = Some (VI (nth (Z.to_nat i) il 0 * nf + c))) /\
  (forall i m, 0 <= i < p_sz p -> m <> 1 -> m <> 2 -> getPrm i m p' = getPrm i m p) /\
  (forall i m, 0 <= i < loff -> getPrm i m p' = getPrm i m p).
Proof.
  intros n p W RR K. destruct sort_label as (e1 & L1 & T1). destruct sort_glabel as (e2 & L2 & T2). induction n as [|n IH]; intros H B.
  - exists p. split; [reflexivity|]. split; [exact W|]. split; [exact RR|]. split; [reflexivity|]. split; [intros; lia|]. split; reflexivity.
  - rewrite zrange_S, fold_left_app. destruct IH as (q & -> & W1 & R1 & S1 & A1 & B1 & C1); [lia|intros; apply B; lia|]. cbn [fold_left obind]. destruct (B (Z.of_nat n) ltac:(lia)) as (U1 & U2).
    destruct (set_get q (loff + Z.of_nat n) 2 (VI (off + loff + nth (Z.to_nat (Z.of_nat n)) il 0)) e2 W1 ltac:(rewrite R1; exact L2) ltac:(lia) ltac:(rewrite T2; exact U1)) as (q1 & E1 & R2 & W2 & S2 & G2 & O2).
    rewrite E1. cbn [obind].
    destruct (set_get q1 (loff + Z.of_nat n) 1 (VI (nth (Z.to_nat (Z.of_nat n)) il 0 * nf + c)) e1 W2 ltac:(rewrite R2, R1; exact L1) ltac:(lia) ltac:(rewrite T1; exact U2)) as (q2 & E2 & R3 & W3 & S3 & G3 & O3).
    exists q2. split; [exact E2|]. split; [exact W3|]. split; [congruence|]. split; [congruence|]. split; [|split].
    + intros i I. destruct (Z.eq_dec i (Z.of_nat n)) as [->|NE].
      * split; [|exact G3]. rewrite O3 by (first [lia|congruence]). exact G2.
      * rewrite !O3 by (first [lia|intros Q; injection Q; lia]). rewrite !O2 by (first [lia|intros Q; injection Q; lia]). apply A1. lia.
    + intros i m I N1 N2. rewrite O3 by (first [lia|congruence]). rewrite O2 by (first [lia|congruence]). apply B1; assumption.
    + intros i m I. rewrite O3 by (first [lia|intros Q; injection Q; lia]). rewrite O2 by (first [lia|intros Q; injection Q; lia]). apply C1. exact I.
Qed.
Lemma omap_total {A B} (h : A -> option B) (g : A -> B) l : (forall x, In x l -> h x = Some (g x)) -> omap h l = Some (map g l).
Proof. induction l as [|x l IH]; intros H; [reflexivity|]. cbn [omap map]. rewrite (H x (or_introl eq_refl)). cbn [obind]. rewrite IH by (intros; apply H; right; assumption). reflexivity. Qed.
Lemma nth_own n i : 0 <= i < n -> nth (Z.to_nat i) (zr n) 0 = i.
Proof. intros I. unfold zr, zrange. rewrite (nth_indep _ 0 (Z.of_nat 0)) by (rewrite map_length, seq_length; lia). rewrite map_nth, seq_nth by lia. lia. Qed.
(** Row j holds trace a of f, the label l and the number n. *)
Definition row_holds (p : param) (j : Z) (f : file) (ns a l n : Z) : Prop :=
  (forall m e v, lookup m (translate sort_rule) = Some e -> decode (disk_header f ns a) 0 0 e = Some v -> getPrm j m p = Some v) /\ getPrm j 1 p = Some (VI l) /\ getPrm j 2 p = Some (VI n).
Lemma row_sorts p j f ns a l n : file_bytes f -> row_holds p j f ns a l n -> in_s64 l -> in_s64 n -> sort_row p j = Some (header_geo (disk_header f ns a) l, n).
Proof.
  intros FB (H & G1 & G2) A N. assert (HB : forall k, is_byte (disk_header f ns a k)) by (intros; apply FB). unfold sort_row, geo_at.
  rewrite (header_read_float ns f FB p j a 20 73 H), (header_read_float ns f FB p j a 21 77 H), (header_read_float ns f FB p j a 22 81 H), (header_read_float ns f FB p j a 23 85 H) by (cbn [In]; auto 10).
  rewrite (header_read_int ns f FB p j a 26 189 H), (header_read_int ns f FB p j a 27 193 H), (header_read_int ns f FB p j a 14 37 H) by (cbn [In]; auto 10).
  rewrite G1, G2. cbn [obind asD asZ asU]. rewrite !int32_small by exact HB. rewrite (s64_id l A), (s64_id n N). reflexivity.
Qed.
Lemma row_kept p p' j f ns a l n : (forall m e, lookup m (translate sort_rule) = Some e -> getPrm j m p' = getPrm j m p) -> row_holds p j f ns a l n -> row_holds p' j f ns a l n.
Proof.
  intros K (H & G1 & G2). destruct sort_label as (e1 & L1 & _). destruct sort_glabel as (e2 & L2 & _). split; [|split].
  - intros m e v L D. rewrite (K m e L). apply (H m e v L D).
  - rewrite (K 1 e1 L1). exact G1.
  - rewrite (K 2 e2 L2). exact G2.
Qed.

(** ---- the positions of one process ---- *)
Fixpoint cut (key : gkey) (j : nat) (nts : list Z) (tr : list Z) : list fdesc :=
  match nts with [] => [] | n :: nts => mkFd key n (zr n) (firstn (Z.to_nat n) (skipn j tr)) :: cut key (j + Z.to_nat n) nts tr end.
Lemma length_zr n : length (zr n) = Z.to_nat n.
Proof. unfold zr, zrange. rewrite map_length, seq_length. reflexivity. Qed.
Lemma alone_off n : 0 <= n -> off_of n 1 0 = 0. Proof. intros. apply off_0; lia. Qed.
Lemma alone_sz n : 0 <= n -> sz_of n 1 0 = n.
Proof. intros. unfold sz_of. rewrite Z.div_1_r, Z.mod_1_r. cbn. lia. Qed.
Lemma alone_ilst key n off : 0 <= n -> f_ilst (entry 1 0 (key, n) off) = zr n.
Proof. intros N. unfold entry. cbn [f_ilst fst snd]. rewrite alone_off, alone_sz by exact N. rewrite <- (map_id (zr n)) at 2. apply map_ext. intros; lia. Qed.
Definition entries_of (key : gkey) := fix go (nts : list Z) (off : Z) : list fdesc := match nts with [] => [] | nt :: nts => entry 1 0 (key, nt) off :: go nts (off + nt) end.
Lemma entries_ilst key : forall nts off, Forall (fun n => 0 <= n) nts -> map f_ilst (entries_of key nts off) = map zr nts.
Proof. induction nts as [|n nts IH]; intros off F; [reflexivity|]. inversion F; subst. cbn [entries_of map]. rewrite alone_ilst by assumption. f_equal. apply IH. assumption. Qed.
Lemma hand_cut key tr : forall nts j off, Forall (fun n => 0 <= n) nts -> (j + Z.to_nat (zsum nts) <= length tr)%nat -> hand_olst j (entries_of key nts off) tr = Some (cut key j nts tr).
Proof.
  induction nts as [|n nts IH]; intros j off F L; [reflexivity|]. inversion F as [|? ? F1 F2]; subst. change (zsum (n :: nts)) with (n + zsum nts) in L. cbn [entries_of hand_olst cut].
  assert (0 <= zsum nts) by (clear -F2; induction F2; [cbn; lia|unfold zsum in *; cbn [fold_right]; lia]).
  assert (LO : length (f_olst (entry 1 0 (key, n) off)) = Z.to_nat n) by (unfold entry; cbn [f_olst fst snd]; rewrite map_length, alone_sz, length_zr by exact F1; reflexivity).
  rewrite LO. replace (Nat.leb (j + Z.to_nat n) (length tr)) with true by (symmetry; apply Nat.leb_le; lia). rewrite IH by (first [exact F2|lia]). cbn [obind]. rewrite alone_ilst by exact F1. reflexivity.
Qed.
Lemma cut_length key tr : forall nts j, length (cut key j nts tr) = length nts.
Proof. induction nts as [|n nts IH]; intros j; [reflexivity|]. cbn [cut length]. rewrite IH. reflexivity. Qed.
Lemma cut_nth key tr : forall nts j k, Forall (fun n => 0 <= n) nts -> (k < length nts)%nat ->
  nth k (cut key j nts tr) no_fd = mkFd key (nth k nts 0) (zr (nth k nts 0)) (firstn (Z.to_nat (nth k nts 0)) (skipn (j + Z.to_nat (zsum (firstn k nts))) tr)).
Proof.
  induction nts as [|n nts IH]; intros j k F K; [cbn in K; lia|]. inversion F as [|? ? F1 F2]; subst. destruct k as [|k]; cbn [cut nth firstn].
  - change (zsum []) with 0. rewrite Nat.add_0_r. reflexivity.
  - rewrite IH by (first [exact F2|cbn in K; lia]). change (zsum (n :: firstn k nts)) with (n + zsum (firstn k nts)).
    assert (0 <= zsum (firstn k nts)). { clear -F2. revert k. induction F2 as [|x l X F IH]; intros [|k]; cbn [firstn]; try (cbn; lia). specialize (IH k). unfold zsum in *. cbn [fold_right]. lia. }
    replace (j + Z.to_nat n + Z.to_nat (zsum (firstn k nts)))%nat with (j + Z.to_nat (n + zsum (firstn k nts)))%nat by lia. reflexivity.
Qed.

Section Many.
Context (maxSize ns : Z) (inc : D) (key : gkey) (fl : list (gkey * (reader * file))).
Let g := group_members key fl.
Let nts := map (fun x : reader * file => r_nt (fst x)) g.
Let nt := zsum nts.
Let nf := Z.of_nat (length g).
Context (M1 : 3600 <= maxSize) (M2 : 2 * (240 + 4 * ns) <= maxSize) (NS : 0 <= ns <= 32767).
Context (U : Forall (fun x => in_u64 (r_nt (fst (snd x)))) fl) (B : forall k, gsum k (map (fun x => (fst x, r_nt (fst (snd x)))) fl) < two64).
Context (GI : forall x, In x g -> set_input maxSize ns inc x) (FOUR : 4 <= nt) (SMALL : nf * nt <= 2 ^ 63).
Lemma small_nt : nt <= 2 ^ 63 /\ 1 <= nf.
Proof.
  assert (1 <= nf). { unfold nf, nt, nts in *. clear -FOUR. destruct g as [|x l]; [cbn in FOUR; lia|cbn [length]; lia]. }
  split; [|exact H]. etransitivity; [|exact SMALL]. rewrite <- (Z.mul_1_l nt) at 1. apply Z.mul_le_mono_nonneg_r; lia.
Qed.
Lemma nts_pos : Forall (fun n => 0 <= n) nts.
Proof.
  unfold nts. apply Forall_forall. intros n I. apply in_map_iff in I. destruct I as (x & <- & X). unfold g, group_members in X. apply in_map_iff in X. destruct X as (y & <- & Y). apply filter_In in Y. apply (proj1 (Forall_forall _ _) U y (proj1 Y)).
Qed.
Lemma alone_files : group_files key fl 1 0%nat = entries_of key nts 0.
Proof.
  unfold group_files. set (fl' := map (fun x => (fst x, r_nt (fst (snd x)))) fl) in *.
  assert (F' : Forall (fun f => in_u64 (snd f)) fl') by (apply Forall_forall; intros x X; apply in_map_iff in X; destruct X as (y & <- & Y); apply (proj1 (Forall_forall _ _) U y Y)).
  assert (EN : map snd (filter (fun f => gkeqb (fst f) key) fl') = nts).
  { unfold nts, fl', g, group_members. clear. induction fl as [|x fl' IH]; [reflexivity|]. cbn [map filter fst]. destruct (gkeqb (fst x) key); cbn [map snd]; [f_equal|]; exact IH. }
  rewrite (add_files_spec (Z.of_nat 1) (Z.of_nat 0) fl') by (assumption || lia). rewrite group_entries, EN. reflexivity.
Qed.
Lemma nts_nth k : (k < length g)%nat -> nth k nts 0 = r_nt (fst (nth k g no_input)).
Proof. intros K. unfold nts. rewrite (nth_indep _ 0 (r_nt (fst no_input))) by (rewrite map_length; exact K). rewrite (map_nth (fun x : reader * file => r_nt (fst x))). reflexivity. Qed.
Lemma nts_len : length nts = length g. Proof. unfold nts. apply map_length. Qed.
Lemma file_ok k : (k < length g)%nat -> let x := nth k g no_input in fits (r_nt (fst x)) ns /\ has_traces (snd x) (r_nt (fst x)) ns /\ file_bytes (snd x) /\ r_format (fst x) <> 1 /\ r_ns (fst x) = ns.
Proof.
  intros K x. assert (X : In x g) by (apply nth_In; exact K). destruct (GI x X) as [(sizes & SO) SB SS SN SI SF SV]. destruct (open_fits _ _ _ _ M1 SB SS SO ltac:(lia)) as (F & HT). rewrite SN in *.
  destruct (open_inv _ _ _ _ M1 SB SS SO) as (E1 & E2 & E3 & _). split; [exact F|]. split; [exact HT|]. split; [exact SB|]. split; [rewrite E3; exact SF|reflexivity].
Qed.
Lemma label_bound k i : (k < length g)%nat -> 0 <= i < nt -> 0 <= i * nf + Z.of_nat k < 2 ^ 63.
Proof.
  intros K I. pose proof small_nt as (_ & N1). assert (0 <= i * nf) by (apply Z.mul_nonneg_nonneg; lia). assert ((i + 1) * nf <= nt * nf) by (apply Z.mul_le_mono_nonneg_r; lia).
  assert (Z.of_nat k < nf) by (unfold nf; lia). rewrite Z.mul_comm in SMALL. lia.
Qed.

(** ---- the rows of the cache ---- *)
Lemma cached sizes : forall g2 g1 p, g = g1 ++ g2 -> wf_param p -> p_rule p = sort_rule -> p_sz p = nt ->
  (forall k i, (k < length g1)%nat -> 0 <= i < nth k nts 0 -> row_holds p (zsum (firstn k nts) + i) (file_of g k) ns i (i * nf + Z.of_nat k) (zsum (firstn k nts) + i)) ->
  exists p', cache_files maxSize sizes 0 (zsum (firstn (length g1) nts)) nf (length g1) (List.combine g2 (map (fun x => zr (r_nt (fst x))) g2)) p = Some p' /\
  forall k i, (k < length g)%nat -> 0 <= i < nth k nts 0 -> row_holds p' (zsum (firstn k nts) + i) (file_of g k) ns i (i * nf + Z.of_nat k) (zsum (firstn k nts) + i).
Proof.
  induction g2 as [|x g2 IH]; intros g1 p EG W R S DONE.
  - cbn [map List.combine cache_files]. exists p. split; [reflexivity|]. rewrite app_nil_r in EG. intros k i K. apply DONE. rewrite <- EG. exact K.
  - set (k0 := length g1). assert (K0 : (k0 < length g)%nat) by (rewrite EG, app_length; cbn [length]; lia).
    assert (NX : nth k0 g no_input = x) by (rewrite EG, app_nth2 by (unfold k0; lia); unfold k0; rewrite Nat.sub_diag; reflexivity).
    assert (NN : nth k0 nts 0 = r_nt (fst x)) by (rewrite nts_nth, NX by exact K0; reflexivity).
    destruct (file_ok k0 K0) as (F & HT & FB & FM & NSE). rewrite NX in F, HT, FB, FM, NSE.
    destruct (firstn_sum nts k0 nts_pos ltac:(rewrite nts_len; exact K0)) as (O1 & O2). fold nt in O2. rewrite NN in O2. set (lo := zsum (firstn k0 nts)) in *.
    assert (N0 : 0 <= r_nt (fst x)) by apply F. destruct x as (rd, f). cbn [fst snd] in *. cbn [map List.combine cache_files]. unfold readTraceNonContiguous. rewrite NSE. destruct sort_usable as (FR & FO).
    destruct (read_spec maxSize (sizes k0) (r_format rd) ns (r_nt rd) (Listed (zr (r_nt rd))) None (Some p) lo f M2 F) as (t' & q' & RE & _ & _ & _ & BB).
    { cbn [tvalid]. apply Forall_forall. intros y Y. apply in_zr in Y. exact Y. }
    { exact HT. } { intros; apply FB. } { exact FM. } { right; discriminate. }
    { intros q Q. injection Q as <-. split; [exact W|]. rewrite R. split; [exact FR|]. split; [exact FO|]. split; [unfold labelled; rewrite R; apply sort_label|]. cbn [tcount]. rewrite length_zr, S. lia. }
    fold k0 lo. cbn [fst]. rewrite RE. cbn [obind]. destruct (BB _ eq_refl) as (sq & -> & WQ & RQ & SQ & DQ & _ & KQ & _). clear BB RE. rewrite R in RQ, DQ, KQ. cbn [obind tcount tpos] in *. rewrite length_zr in DQ, KQ.
    assert (NI : forall i, 0 <= i < r_nt rd -> nth (Z.to_nat i) (zr (r_nt rd)) 0 = i).
    { intros i I. apply nth_own. exact I. }
    pose proof small_nt as (SM & _). change (2 ^ 63) with 9223372036854775808 in SM.
    unfold number_rows. rewrite zr_nat.
    destruct (number_spec2 0 lo nf (Z.of_nat k0) (zr (r_nt rd)) (length (zr (r_nt rd))) sq WQ RQ O1 ltac:(rewrite length_zr, SQ, S; lia)) as (q & EQ & WQ2 & RQ2 & SQ2 & GN & GO & GF).
    { intros i I. rewrite length_zr in I. rewrite NI by lia. pose proof (label_bound k0 i K0 ltac:(lia)) as LB. change (2 ^ 63) with 9223372036854775808 in LB. unfold in_u64, two64. lia. }
    rewrite EQ. cbn [obind]. clear EQ.
    assert (LEN : length (g1 ++ [(rd, f)]) = Datatypes.S k0) by (rewrite app_length; cbn [length]; fold k0; lia).
    assert (FS : zsum (firstn (Datatypes.S k0) nts) = lo + r_nt rd).
    { rewrite zsum_firstn_S by (rewrite nts_len; exact K0). rewrite NN. reflexivity. }
    destruct (IH (g1 ++ [(rd, f)]) q) as (p' & E & H).
    { rewrite <- app_assoc. exact EG. } { exact WQ2. } { exact RQ2. } { congruence. }
    { rewrite LEN. intros k i K I. destruct (Nat.eq_dec k k0) as [->|NE].
      - rewrite NN in I. fold lo. unfold file_of. rewrite NX. cbn [snd]. destruct (GN i ltac:(rewrite length_zr; lia)) as (G2 & G1). rewrite NI in G1, G2 by exact I. split; [|split; [exact G1|exact G2]].
        intros m e v L D. assert (NM : m <> 1 /\ m <> 2).
        { destruct sort_label as (e1 & L1 & T1). destruct sort_glabel as (e2 & L2 & T2). split; intros EM; rewrite EM in L; [exact (index_not_decoded _ _ _ _ _ _ L1 T1 L D)|exact (index_not_decoded _ _ _ _ _ _ L2 T2 L D)]. }
        rewrite GO by (first [lia|apply NM]). rewrite Z.add_comm. apply (DQ i m e v ltac:(lia) L). rewrite NI by exact I. exact D.
      - assert (KL : (k < k0)%nat) by lia. assert (PB : 0 <= zsum (firstn k nts) + i < lo).
        { destruct (firstn_sum (firstn k0 nts) k) as (P1 & P2).
          { apply Forall_forall. intros y Y. apply (proj1 (Forall_forall _ _) nts_pos). rewrite <- (firstn_skipn k0 nts). apply in_or_app. left. exact Y. }
          { rewrite firstn_length, nts_len. lia. }
          rewrite firstn_firstn, Nat.min_l in P1, P2 by lia. assert (NK : nth k (firstn k0 nts) 0 = nth k nts 0). { rewrite <- (firstn_skipn k0 nts) at 2. rewrite app_nth1; [reflexivity|]. rewrite firstn_length, nts_len. lia. }
          rewrite NK in P2. unfold lo. lia. }
        apply (row_kept p); [|apply DONE; [exact KL|exact I]]. intros m e L. rewrite GF by exact PB. apply (KQ _ m e); [lia|left; lia|exact L]. }
    rewrite LEN, FS in E. exists p'. split; [|exact H]. replace (lo + Z.of_nat (length (zr (r_nt rd)))) with (lo + r_nt rd) by (rewrite length_zr; lia). exact E.
Qed.
Definition row_of (b : Z) : geo * Z := (trace_geo g ns (locate 0 nts b), b).
Lemma one_rows sizes : group_rows maxSize sizes g (group_files key fl 1) 0%nat = Some (map row_of (zr nt)).
Proof.
  unfold group_rows. assert (LN : group_lnt (group_files key fl 1) 0%nat = nt).
  { unfold group_lnt. rewrite alone_files. rewrite <- (map_map f_ilst (fun l => Z.of_nat (length l))), entries_ilst by apply nts_pos. rewrite map_map. unfold nt. pose proof nts_pos as F. clear -F. induction F as [|n l N F IH]; [reflexivity|].
    cbn [map]. change (zsum (n :: l)) with (n + zsum l). unfold zsum at 1. cbn [fold_right]. fold (zsum (map (fun x => Z.of_nat (length (zr x))) l)). rewrite IH, length_zr. lia. }
  assert (LF : length (group_files key fl 1 0%nat) = length g) by (rewrite alone_files, <- (map_length f_ilst), entries_ilst, map_length by apply nts_pos; apply nts_len).
  rewrite LN, LF. cbn [seq map]. change (zsum []) with 0. rewrite alone_files, entries_ilst by apply nts_pos.
  assert (EI : map zr nts = map (fun x => zr (r_nt (fst x))) g) by (unfold nts; rewrite map_map; reflexivity). rewrite EI. fold nf.
  destruct (cached (sizes 0%nat) g [] (newParam sort_rule nt) eq_refl) as (p' & E & H).
  { apply newParam_wf; [apply sort_good|lia]. } { reflexivity. } { reflexivity. } { intros k i K. cbn in K. lia. }
  cbn [length firstn] in E. change (zsum []) with 0 in E. rewrite E. cbn [obind]. apply omap_total. intros b Hb. apply in_zr in Hb.
  destruct (located nts nts_pos b Hb) as (k & i & K & I & EB). rewrite nts_len in K. destruct (file_ok k K) as (_ & _ & FB & _).
  destruct (firstn_sum nts k nts_pos ltac:(rewrite nts_len; exact K)) as (O1 & O2). fold nt in O2. pose proof (label_bound k i K ltac:(lia)) as LB. pose proof small_nt as (SM & _). change (2 ^ 63) with 9223372036854775808 in *.
  rewrite EB. rewrite (row_sorts p' _ (file_of g k) ns i (i * nf + Z.of_nat k) (zsum (firstn k nts) + i) FB (H k i K I)) by (unfold in_s64; lia).
  unfold row_of. rewrite locate_spec by (first [apply nts_pos|rewrite nts_len; exact K|exact I]). reflexivity.
Qed.

(** ---- the sort ---- *)
Lemma located_pair b : 0 <= b < nt -> exists k i, locate 0 nts b = (k, i) /\ (k < length g)%nat /\ 0 <= i < nth k nts 0 /\ b = zsum (firstn k nts) + i.
Proof. intros Hb. destruct (located nts nts_pos b Hb) as (k & i & K & I & E). exists k, i. rewrite nts_len in K. split; [rewrite E; apply locate_spec; [apply nts_pos|rewrite nts_len; exact K|exact I]|auto]. Qed.
Lemma geo_label b : 0 <= b < nt -> finite_geo (trace_geo g ns (locate 0 nts b)).
Proof. intros Hb. destruct (located_pair b Hb) as (k & i & -> & K & _). unfold trace_geo. cbn [fst snd]. apply geo_finite. apply (file_ok k K). Qed.
Lemma same_label b b' : 0 <= b < nt -> 0 <= b' < nt -> g_ltn (trace_geo g ns (locate 0 nts b)) = g_ltn (trace_geo g ns (locate 0 nts b')) -> b = b'.
Proof.
  intros Hb Hb' E. destruct (located_pair b Hb) as (k & i & E1 & K & I & ->). destruct (located_pair b' Hb') as (k' & i' & E2 & K' & I' & ->). rewrite E1, E2 in E. unfold trace_geo, header_geo in E. cbn [g_ltn fst snd] in E. fold nf in E.
  assert (KK : Z.of_nat k < nf /\ Z.of_nat k' < nf) by (unfold nf; lia).
  assert (Q : i = i'). { apply (f_equal (fun z => z / nf)) in E. rewrite !(Z.add_comm (_ * nf)), !Z.div_add, !Z.div_small in E by lia. lia. } subst i'. assert (k = k') by lia. subst. reflexivity.
Qed.
Lemma rows_total type : 35 <= type <= 43 -> strict_total (fun x => In x (map row_of (zr nt))) (by_type type).
Proof.
  intros T. set (G := fun a => exists b, 0 <= b < nt /\ a = trace_geo g ns (locate 0 nts b)).
  destruct (C50_orders_total type G T) as (T1 & T2 & T3).
  { intros a (b & Hb & ->). apply geo_label. exact Hb. }
  { intros a a' (b & Hb & ->) (b' & Hb' & ->) E. rewrite (same_label b b' Hb Hb' E). reflexivity. }
  assert (IG : forall x, In x (map row_of (zr nt)) -> G (fst x)) by (intros x X; apply in_map_iff in X; destruct X as (b & <- & X); apply in_zr in X; exists b; split; [exact X|reflexivity]).
  unfold by_type. split; [intros x X; apply T1, IG, X|]. split; [intros x y z X Y Z; apply T2; apply IG; assumption|].
  intros x y X Y A1 A2. pose proof (T3 _ _ (IG x X) (IG y Y) A1 A2) as E. apply in_map_iff in X. destruct X as (b & <- & X). apply in_map_iff in Y. destruct Y as (b' & <- & Y). apply in_zr in X, Y.
  rewrite (same_label b b' X Y); [reflexivity|]. apply (f_equal g_ltn) in E. exact E.
Qed.
Lemma rows_snd : map snd (map row_of (zr nt)) = zr nt. Proof. rewrite map_map. apply map_id. Qed.
Lemma rows_nodup : NoDup (map row_of (zr nt)).
Proof. apply (NoDup_map_inv snd). rewrite rows_snd. unfold zr. apply nodup_zrange. Qed.
Lemma rows_apart : told_apart snd (map row_of (zr nt)).
Proof. intros x y X Y E. apply in_map_iff in X. destruct X as (b & <- & X). apply in_map_iff in Y. destruct Y as (b' & <- & Y). cbn [row_of snd] in E. rewrite E. reflexivity. Qed.
Lemma rows_increase : StronglySorted Z.lt (map snd (map row_of (zr nt))).
Proof. rewrite rows_snd. pose proof (strict_seq nt 0) as Q. assert (E : map (fun i => 0 + i) (zr nt) = zr nt) by (rewrite <- (map_id (zr nt)) at 2; apply map_ext; intros; lia). rewrite E in Q. exact Q. Qed.
Let rows r := nth r [map row_of (zr nt)] [].
Lemma rows_one : all 1 rows = map row_of (zr nt).
Proof. rewrite all_S. reflexivity. Qed.
Lemma rows_len : length (rows 0%nat) = Z.to_nat nt. Proof. unfold rows. cbn [nth]. rewrite map_length. apply length_zr. Qed.
Lemma one_sort fuel fuel2 sizes srt type : sort_set fuel fuel2 maxSize sizes srt type g (group_files key fl 1) 1 =
  obind (option_map snd (sort_metadata fuel fuel2 srt (by_type type) snd no_row 1 rows)) (fun pos =>
  obind (obind (hand_olst 0 (entries_of key nts 0) (pos 0%nat)) (fun l => Some [l])) (fun l => Some (fun r => nth r l []))).
Proof.
  unfold sort_set. cbn [seq omap]. rewrite one_rows. cbn [obind]. unfold sort_positions. cbn [seq existsb]. change (nth 0 [map row_of (zr nt)] []) with (rows 0%nat). rewrite rows_len.
  replace (Nat.ltb (Z.to_nat nt) 3) with false by (symmetry; apply Nat.ltb_ge; lia). cbn [orb]. destruct (option_map _ _) as [pos|]; [|reflexivity]. cbn [obind]. rewrite alone_files. destruct (hand_olst _ _ _); reflexivity.
Qed.
Lemma rows_four r : (r < 1)%nat -> (4 <= length (rows r))%nat.
Proof. intros R. assert (r = 0%nat) as -> by lia. rewrite rows_len. lia. Qed.
Lemma one_handed fuel fuel2 srt type out final : std_sort srt -> 35 <= type <= 43 -> sort_metadata fuel fuel2 srt (by_type type) snd no_row 1 rows = Some (out, final) ->
  length (final 0%nat) = Z.to_nat nt /\ hand_olst 0 (entries_of key nts 0) (final 0%nat) = Some (cut key 0 nts (final 0%nat)).
Proof.
  intros S T H. destruct (C55_final_places _ srt (by_type type) snd no_row 1 rows fuel fuel2 out final S ltac:(lia) rows_four) as (_ & _ & L); try assumption.
  { rewrite rows_one. apply total_weak, rows_total, T. } { rewrite rows_one. exact rows_increase. }
  assert (LN : length (final 0%nat) = Z.to_nat nt) by (rewrite (L 0%nat) by lia; apply rows_len). split; [exact LN|]. apply hand_cut; [apply nts_pos|]. fold nt. lia.
Qed.
Lemma many_defined sizes srt type : std_sort srt -> 35 <= type <= 43 ->
  exists n, forall fuel, (n <= fuel)%nat -> exists n2, forall fuel2, (n2 <= fuel2)%nat -> exists fds', sort_set fuel fuel2 maxSize sizes srt type g (group_files key fl 1) 1 = Some fds'.
Proof.
  intros S T. destruct (C53_terminates _ srt (by_type type) snd no_row 1 rows S ltac:(lia)) as (n & H).
  { rewrite rows_one. apply rows_total, T. } { rewrite rows_one. apply rows_nodup. } { rewrite rows_one. apply rows_apart. }
  exists n. intros fuel FU. destruct (H fuel FU) as (n2 & H2). exists n2. intros fuel2 FU2. destruct (H2 fuel2 FU2) as ((out, final) & E). rewrite one_sort, E. cbn [option_map obind snd].
  destruct (one_handed _ _ _ _ _ _ S T E) as (_ & ->). cbn [obind]. eauto.
Qed.
Lemma many_result fuel fuel2 sizes srt type fds' : std_sort srt -> 35 <= type <= 43 -> sort_set fuel fuel2 maxSize sizes srt type g (group_files key fl 1) 1 = Some fds' ->
  exists perm, Permutation perm (every_trace nts) /\ StronglySorted (fun a b => ~ lex (keys type (trace_geo g ns b)) (keys type (trace_geo g ns a))) perm /\
  placed 1 nt nts fds' (fun b => nth (Z.to_nat b) perm (0%nat, 0)).
Proof.
  intros S T H. rewrite one_sort in H. destruct (sort_metadata _ _ _ _ _ _ _ _) as [(out, final)|] eqn:E; [|discriminate]. cbn [option_map obind snd] in H.
  destruct (one_handed _ _ _ _ _ _ S T E) as (LN & HO). rewrite HO in H. cbn [obind] in H. injection H as <-.
  destruct (C55_final_places _ srt (by_type type) snd no_row 1 rows fuel fuel2 out final S ltac:(lia) rows_four) as (FP & PF & _); try assumption.
  { rewrite rows_one. apply total_weak, rows_total, T. } { rewrite rows_one. exact rows_increase. }
  destruct (C52_sorted_permutation _ srt (by_type type) snd no_row 1 rows fuel fuel2 out final S ltac:(lia) rows_four) as (PO & SO & _); try assumption.
  { rewrite rows_one. apply total_weak, rows_total, T. } { rewrite rows_one. apply rows_apart. }
  rewrite rows_one in PF, PO, FP. rewrite map_length, length_zr, Z2Nat.id in PF by lia.
  assert (AF : all 1 final = final 0%nat) by (rewrite all_S; reflexivity). rewrite AF in PF, FP.
  set (perm := map (fun x : geo * Z => locate 0 nts (snd x)) (all 1 out)). exists perm. split; [|split].
  - unfold perm. rewrite <- (map_map snd (locate 0 nts)). unfold every_trace. rewrite <- locate_all by apply nts_pos. fold nt. apply Permutation_map. rewrite <- rows_snd. apply Permutation_map, Permutation_sym, PO.
  - assert (ROW : forall x, In x (all 1 out) -> fst x = trace_geo g ns (locate 0 nts (snd x)) /\ finite_geo (fst x)).
    { intros x X. apply (Permutation_in _ (Permutation_sym PO)) in X. apply in_map_iff in X. destruct X as (b & <- & Hb). apply in_zr in Hb. split; [reflexivity|]. apply geo_label. exact Hb. }
    unfold perm. clear -SO ROW T. unfold sorted in SO. induction SO as [|x l SS IH Q]; [constructor|]. cbn [map]. constructor; [apply IH; intros; apply ROW; right; assumption|].
    rewrite Forall_forall in *. intros z Hz K. apply in_map_iff in Hz. destruct Hz as (y & <- & Y). specialize (Q y Y). unfold by_type in Q. destruct (ROW x (or_introl eq_refl)) as (X1 & X2). destruct (ROW y (or_intror Y)) as (Y1 & Y2). rewrite <- X1, <- Y1 in K.
    apply (C50_orders_compare_keys type (fst y) (fst x) T) in K; [congruence|exact Y2|exact X2].
  - assert (ND : NoDup (final 0%nat)) by (apply (Permutation_NoDup (Permutation_sym PF)); unfold zr; apply nodup_zrange).
    constructor; cbv beta.
    + intros r R. assert (r = 0%nat) as -> by lia. cbn [nth]. apply cut_length.
    + intros r k R K. assert (r = 0%nat) as -> by lia. cbn [nth]. rewrite cut_nth by (first [apply nts_pos|exact K]). cbn [f_ilst f_olst]. rewrite Nat.add_0_l.
      destruct (firstn_sum nts k nts_pos K) as (O1 & O2). fold nt in O2. set (n := nth k nts 0) in *. set (o := zsum (firstn k nts)) in *.
      assert (N0 : 0 <= n) by (apply (proj1 (Forall_forall _ _) nts_pos), nth_In; exact K).
      assert (LO : length (firstn (Z.to_nat n) (skipn (Z.to_nat o) (final 0%nat))) = Z.to_nat n) by (rewrite firstn_length, skipn_length, LN; lia).
      rewrite length_zr, LO. split; [reflexivity|]. split.
      * apply (NoDup_nth _ 0). rewrite LO. intros a b A Hb Q. rewrite !nth_slice in Q by assumption. apply (proj1 (NoDup_nth (final 0%nat) 0) ND) in Q; rewrite ?LN; lia.
      * intros j J. rewrite nth_slice by exact J. assert (JF : (Z.to_nat o + j < length (final 0%nat))%nat) by (rewrite LN; lia). pose proof (nth_error_nth' _ 0 JF) as NF.
        assert (FI : In (nth (Z.to_nat o + j) (final 0%nat) 0) (zr nt)) by (apply (Permutation_in _ PF), nth_In; exact JF). apply in_zr in FI. split; [exact FI|].
        assert (NJ : nth j (zr n) 0 = Z.of_nat j) by (pose proof (nth_own n (Z.of_nat j) ltac:(lia)) as Q; rewrite Nat2Z.id in Q; exact Q). rewrite NJ. split; [lia|].
        assert (RJ : nth_error (map row_of (zr nt)) (Z.to_nat o + j) = Some (row_of (o + Z.of_nat j))).
        { apply map_nth_error. rewrite (nth_error_nth' _ 0) by (rewrite length_zr; lia). f_equal. pose proof (nth_own nt (o + Z.of_nat j) ltac:(lia)) as Q. replace (Z.to_nat (o + Z.of_nat j)) with (Z.to_nat o + j)%nat in Q by lia. exact Q. }
        destruct (FP _ _ RJ) as (q & Q1 & Q2). rewrite NF in Q1. injection Q1 as Q1. rewrite Q1, Nat2Z.id.
        assert (NP : nth_error perm q = Some (locate 0 nts (o + Z.of_nat j))) by (unfold perm; rewrite nth_error_map, Q2; reflexivity). rewrite (nth_error_nth _ _ _ NP).
        unfold o. rewrite locate_spec by (first [apply nts_pos|exact K|fold n; lia]). reflexivity.
    + intros b Hb. assert (IB : In b (final 0%nat)) by (apply (Permutation_in _ (Permutation_sym PF)), in_zr; exact Hb). apply (In_nth _ _ 0) in IB. destruct IB as (m & Hm & Em). rewrite LN in Hm.
      destruct (located nts nts_pos (Z.of_nat m)) as (k & i & K & I & EM); [fold nt; lia|]. exists 0%nat, k, (Z.to_nat i). split; [lia|]. split; [exact K|]. cbv zeta. cbn [nth]. rewrite cut_nth by (first [apply nts_pos|exact K]). cbn [f_ilst f_olst]. rewrite length_zr.
      split; [lia|]. rewrite nth_slice by lia. destruct (firstn_sum nts k nts_pos K) as (O1 & _). replace (0 + Z.to_nat (zsum (firstn k nts)) + Z.to_nat i)%nat with m by lia. exact Em.
Qed.
End Many.
