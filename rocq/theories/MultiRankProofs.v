(** Lemmas about sorting several files on several processes. *)
From Coq Require Import Reals Lra Permutation Sorted.
From Flocq Require Import Core IEEE754.BinarySingleNaN.
From Verif Require Import Base DecompModel DecompSpec DecompProofs NumEncModel NumEncSpec NumEncProofs CharEncModel CharEncProofs LayoutModel LayoutProofs DataIOModel DataIOProofs
  RuleModel RuleProofs DoubleModel ParamModel ParamProofs HeaderProofs ScalarProofs FileSpec FileModel FileProofs WriteSpec WriteProofs RuleProperties ParamProperties ReadProofs OpenProofs FileProperties TraceProperties.
From Verif Require Import SortSpec SortModel SortProofs CompProofs SortProperties FlowModel FlowProofs FlowProperties CopySpec CopyProofs ExampleModel ExampleProofs SetFileModel SetFileSpec SetFileProofs SetOutProofs SetSortModel SetSortSpec SetSortProofs MultiSortSpec MultiSortProofs ReduceProperties.
Import ListNotations.
Import ListNotations.
Open Scope Z_scope.

Lemma omap_nth {A} (h : Z -> option A) l d n : length l = Z.to_nat n -> (forall b, 0 <= b < n -> h b = Some (nth (Z.to_nat b) l d)) -> omap h (zr n) = Some l.
Proof.
  intros L H. rewrite (omap_total h (fun b => nth (Z.to_nat b) l d)) by (intros b B; apply in_zr in B; apply H; exact B). f_equal.
  apply (nth_ext _ _ d d); [rewrite map_length, length_zr; symmetry; exact L|]. rewrite map_length, length_zr. intros j J. rewrite (nth_indep _ d ((fun b => nth (Z.to_nat b) l d) 0)) by (rewrite map_length, length_zr; exact J).
  rewrite (map_nth (fun b => nth (Z.to_nat b) l d)). rewrite <- (Nat2Z.id j) at 1. rewrite nth_own by lia. rewrite Nat2Z.id. reflexivity.
Qed.
Lemma cache_at off nf : forall pcs loff c k j, Forall (fun pc => 0 <= local_size pc) pcs -> (k < length pcs)%nat -> 0 <= j < local_size (nth k pcs (mkPiece 0 0)) ->
  nth_error (cache_numbers off loff c nf pcs) (Z.to_nat (zsum (firstn k (map local_size pcs)) + j)) =
  Some (off + (loff + zsum (firstn k (map local_size pcs))) + (global_offset (nth k pcs (mkPiece 0 0)) + j), (global_offset (nth k pcs (mkPiece 0 0)) + j) * nf + (c + Z.of_nat k)).
Proof.
  induction pcs as [|pc pcs IH]; intros loff c k j F K J; [cbn in K; lia|]. inversion F as [|? ? F1 F2]; subst. cbn [cache_numbers]. destruct k as [|k]; cbn [nth map firstn] in *.
  - change (zsum []) with 0. rewrite nth_error_app1 by (rewrite map_length, length_zr; lia). rewrite (map_nth_error _ _ (zr (local_size pc)) (d := j)); [do 2 f_equal; lia|].
    rewrite (nth_error_nth' _ 0) by (rewrite length_zr; lia). f_equal. rewrite Z.add_0_l. apply nth_own. exact J.
  - change (zsum (local_size pc :: firstn k (map local_size pcs))) with (local_size pc + zsum (firstn k (map local_size pcs))).
    assert (NN : 0 <= zsum (firstn k (map local_size pcs))). { clear -F2. revert k. induction F2 as [|x l X F IH]; intros [|k]; cbn [map firstn]; try (cbn; lia). specialize (IH k). unfold zsum in *. cbn [fold_right]. lia. }
    rewrite nth_error_app2 by (rewrite map_length, length_zr; lia). rewrite map_length, length_zr. replace (Z.to_nat (local_size pc + zsum (firstn k (map local_size pcs)) + j) - Z.to_nat (local_size pc))%nat with (Z.to_nat (zsum (firstn k (map local_size pcs)) + j)) by lia.
    rewrite IH by (first [exact F2|cbn in K; lia|exact J]). do 2 f_equal; lia.
Qed.
Lemma cache_len off nf : forall pcs loff c, Forall (fun pc => 0 <= local_size pc) pcs -> Z.of_nat (length (cache_numbers off loff c nf pcs)) = zsum (map local_size pcs).
Proof.
  induction pcs as [|pc pcs IH]; intros loff c F; [reflexivity|]. inversion F; subst. cbn [cache_numbers map]. change (zsum (local_size pc :: map local_size pcs)) with (local_size pc + zsum (map local_size pcs)).
  rewrite app_length, map_length, length_zr, Nat2Z.inj_add, IH by assumption. lia.
Qed.

Lemma m_size p r n : (r < p)%nat -> 0 <= n -> 0 <= sz_of n (Z.of_nat p) (Z.of_nat r).
Proof. intros R N. unfold sz_of. assert (0 <= n / Z.of_nat p) by (apply Z.div_pos; lia). destruct (_ <? _); lia. Qed.
Lemma all_at {A} q (d : nat -> list A) r j : (r < q)%nat -> (j < length (d r))%nat -> nth_error (all q d) (length (all r d) + j) = nth_error (d r) j.
Proof.
  intros R J. induction q as [|q IH]; [lia|]. rewrite all_S. destruct (Nat.eq_dec r q) as [->|N].
  - rewrite nth_error_app2 by lia. f_equal. lia.
  - rewrite nth_error_app1; [apply IH; lia|]. assert (E : forall k, (r < k)%nat -> (length (all r d) + length (d r) <= length (all k d))%nat).
    { clear. induction k as [|k IH]; intros K; [lia|]. rewrite all_S, app_length. destruct (Nat.eq_dec r k) as [->|N]; [lia|]. specialize (IH ltac:(lia)). lia. }
    specialize (E q ltac:(lia)). lia.
Qed.
Lemma all_same_length {A B} (d : nat -> list A) (e : nat -> list B) : forall r, (forall q, (q < r)%nat -> length (d q) = length (e q)) -> length (all r d) = length (all r e).
Proof. induction r as [|r IH]; intros H; [reflexivity|]. rewrite !all_S, !app_length, IH, (H r) by (try lia; intros; apply H; lia). reflexivity. Qed.
Section Ranks.
Context (maxSize ns : Z) (inc : D) (key : gkey) (fl : list (gkey * (reader * file))) (p : nat).
Let g := group_members key fl.
Let nts := map (fun x : reader * file => r_nt (fst x)) g.
Let nt := zsum nts.
Let nf := Z.of_nat (length g).
Context (M1 : 3600 <= maxSize) (M2 : 2 * (240 + 4 * ns) <= maxSize) (NS : 0 <= ns <= 32767) (P : (0 < p)%nat).
Context (U : Forall (fun x => in_u64 (r_nt (fst (snd x)))) fl) (B : forall k, gsum k (map (fun x => (fst x, r_nt (fst (snd x)))) fl) < two64).
Context (GI : forall x, In x g -> set_input maxSize ns inc x) (POS : 0 < nt) (FT : fits nt ns) (SMALL : nf * nt <= 2 ^ 63).
Lemma m_nf : 1 <= nf.
Proof. unfold nf, nt, nts in *. clear -POS. destruct g as [|x l]; [cbn in POS; lia|cbn [length]; lia]. Qed.
Lemma m_small : 2 * nt < 2 ^ 63.
Proof. destruct FT as (F1 & F2 & F3 & _). assert (nt * 240 <= nt * (240 + 4 * ns)) by (apply Z.mul_le_mono_nonneg_l; lia). change (2 ^ 63) with 9223372036854775808. unfold two64 in *. lia. Qed.
Lemma m_pos : Forall (fun n => 0 <= n) nts. Proof. apply (nts_pos key fl U). Qed.
Lemma m_u64 : Forall in_u64 nts.
Proof.
  unfold nts. apply Forall_forall. intros n I. apply in_map_iff in I. destruct I as (x & <- & X). unfold g, group_members in X. apply in_map_iff in X. destruct X as (y & <- & Y). apply filter_In in Y. apply (proj1 (Forall_forall _ _) U y (proj1 Y)).
Qed.
Definition m_entries (r : nat) := fix go (nts : list Z) (off : Z) : list fdesc := match nts with [] => [] | nt :: nts => entry (Z.of_nat p) (Z.of_nat r) (key, nt) off :: go nts (off + nt) end.
Lemma m_files r : (r < p)%nat -> group_files key fl p r = m_entries r nts 0.
Proof.
  intros R. unfold group_files. set (fl' := map (fun x => (fst x, r_nt (fst (snd x)))) fl) in *.
  assert (F' : Forall (fun f => in_u64 (snd f)) fl') by (apply Forall_forall; intros x X; apply in_map_iff in X; destruct X as (y & <- & Y); apply (proj1 (Forall_forall _ _) U y Y)).
  assert (EN : map snd (filter (fun f => gkeqb (fst f) key) fl') = nts).
  { unfold nts, fl', g, group_members. clear. induction fl as [|x fl' IH]; [reflexivity|]. cbn [map filter fst]. destruct (gkeqb (fst x) key); cbn [map snd]; [f_equal|]; exact IH. }
  rewrite (add_files_spec (Z.of_nat p) (Z.of_nat r) fl') by (assumption || lia). rewrite group_entries, EN. reflexivity.
Qed.
(** The traces of file k on rank r. *)
Definition m_il (r : nat) (n : Z) : list Z := map (fun i => off_of n (Z.of_nat p) (Z.of_nat r) + i) (zr (sz_of n (Z.of_nat p) (Z.of_nat r))).
Definition m_lens (r : nat) : list Z := map (fun n => sz_of n (Z.of_nat p) (Z.of_nat r)) nts.
Lemma m_sz r n : (r < p)%nat -> 0 <= n -> 0 <= sz_of n (Z.of_nat p) (Z.of_nat r).
Proof. intros R N. unfold sz_of. assert (0 <= n / Z.of_nat p) by (apply Z.div_pos; lia). destruct (_ <? _); lia. Qed.
Lemma m_lens_pos r : (r < p)%nat -> Forall (fun n => 0 <= n) (m_lens r).
Proof. intros R. unfold m_lens. apply Forall_forall. intros x X. apply in_map_iff in X. destruct X as (n & <- & N). apply m_sz; [exact R|]. apply (proj1 (Forall_forall _ _) m_pos n N). Qed.
Lemma m_lens_len r : length (m_lens r) = length g. Proof. unfold m_lens. rewrite map_length. unfold nts. apply map_length. Qed.
Lemma m_lens_nth r k : (k < length g)%nat -> nth k (m_lens r) 0 = sz_of (nth k nts 0) (Z.of_nat p) (Z.of_nat r).
Proof. intros K. unfold m_lens. rewrite (nth_indep _ 0 (sz_of 0 (Z.of_nat p) (Z.of_nat r))) by (rewrite map_length; unfold nts; rewrite map_length; exact K). apply (map_nth (fun n => sz_of n (Z.of_nat p) (Z.of_nat r))). Qed.
Lemma m_il_len r n : length (m_il r n) = Z.to_nat (sz_of n (Z.of_nat p) (Z.of_nat r)). Proof. unfold m_il. rewrite map_length. apply length_zr. Qed.
Lemma m_il_nth r n i : 0 <= i < sz_of n (Z.of_nat p) (Z.of_nat r) -> nth (Z.to_nat i) (m_il r n) 0 = off_of n (Z.of_nat p) (Z.of_nat r) + i.
Proof.
  intros I. unfold m_il. set (h := fun i => off_of n (Z.of_nat p) (Z.of_nat r) + i). rewrite (nth_indep _ 0 (h 0)) by (rewrite map_length, length_zr; lia). rewrite (map_nth h), nth_own by exact I. reflexivity.
Qed.
Lemma m_bound r k i : (r < p)%nat -> (k < length g)%nat -> 0 <= i < nth k (m_lens r) 0 -> 0 <= off_of (nth k nts 0) (Z.of_nat p) (Z.of_nat r) + i < nth k nts 0.
Proof. intros R K I. rewrite m_lens_nth in I by exact K. apply off_sz_bound; [apply (proj1 (Forall_forall _ _) m_u64), nth_In; unfold nts; rewrite map_length; exact K|lia|lia|apply in_zr; exact I]. Qed.
Lemma m_nts_le k : (k < length g)%nat -> nth k nts 0 <= nt.
Proof. intros K. destruct (firstn_sum nts k m_pos ltac:(unfold nts; rewrite map_length; exact K)) as (O1 & O2). fold nt in O2. lia. Qed.
Lemma m_label k i : (k < length g)%nat -> 0 <= i < nt -> 0 <= i * nf + Z.of_nat k < 2 ^ 63.
Proof.
  intros K I. pose proof m_nf as N1. assert (0 <= i * nf) by (apply Z.mul_nonneg_nonneg; lia). assert ((i + 1) * nf <= nt * nf) by (apply Z.mul_le_mono_nonneg_r; lia).
  assert (Z.of_nat k < nf) by (unfold nf; lia). rewrite Z.mul_comm in SMALL. lia.
Qed.
Lemma m_file k : (k < length g)%nat -> let x := nth k g no_input in fits (r_nt (fst x)) ns /\ has_traces (snd x) (r_nt (fst x)) ns /\ file_bytes (snd x) /\ r_format (fst x) <> 1 /\ r_ns (fst x) = ns.
Proof.
  intros K x. assert (X : In x g) by (apply nth_In; exact K). destruct (GI x X) as [(sizes & SO) SB SS SN SI SF SV]. destruct (open_fits _ _ _ _ M1 SB SS SO ltac:(lia)) as (F & HT). rewrite SN in *.
  destruct (open_inv _ _ _ _ M1 SB SS SO) as (E1 & E2 & E3 & _). split; [exact F|]. split; [exact HT|]. split; [exact SB|]. split; [rewrite E3; exact SF|reflexivity].
Qed.
Lemma m_lens_sum r : (r < p)%nat -> zsum (m_lens r) <= nt.
Proof.
  intros R. unfold m_lens, nt. pose proof m_u64 as F. clear -F R P. induction F as [|n l N F IH]; [cbn; lia|]. cbn [map]. unfold zsum in *. cbn [fold_right].
  assert (sz_of n (Z.of_nat p) (Z.of_nat r) <= n). { destruct (Z_le_gt_dec (sz_of n (Z.of_nat p) (Z.of_nat r)) 0) as [Q|Q]; [destruct N; lia|]. pose proof (off_sz_bound n (Z.of_nat p) (Z.of_nat r) (sz_of n (Z.of_nat p) (Z.of_nat r) - 1) N ltac:(lia) ltac:(lia) ltac:(apply in_zr; lia)) as W.
    assert (0 <= off_of n (Z.of_nat p) (Z.of_nat r)). { rewrite <- (off_0 n (Z.of_nat p)) by (destruct N; lia). apply off_mono; destruct N; lia. } lia. }
  lia.
Qed.

(** ---- the rows of the cache on rank r ---- *)
Lemma m_cached sizes r off : (r < p)%nat -> 0 <= off -> off + zsum (m_lens r) <= nt -> forall g2 g1 q, g = g1 ++ g2 -> wf_param q -> p_rule q = sort_rule -> p_sz q = zsum (m_lens r) ->
  (forall k i, (k < length g1)%nat -> 0 <= i < nth k (m_lens r) 0 -> let a := off_of (nth k nts 0) (Z.of_nat p) (Z.of_nat r) + i in
     row_holds q (zsum (firstn k (m_lens r)) + i) (file_of g k) ns a (a * nf + Z.of_nat k) (off + zsum (firstn k (m_lens r)) + a)) ->
  exists q', cache_files maxSize sizes off (zsum (firstn (length g1) (m_lens r))) nf (length g1) (List.combine g2 (map (fun x => m_il r (r_nt (fst x))) g2)) q = Some q' /\
  forall k i, (k < length g)%nat -> 0 <= i < nth k (m_lens r) 0 -> let a := off_of (nth k nts 0) (Z.of_nat p) (Z.of_nat r) + i in
     row_holds q' (zsum (firstn k (m_lens r)) + i) (file_of g k) ns a (a * nf + Z.of_nat k) (off + zsum (firstn k (m_lens r)) + a).
Proof.
  intros R OFF OB. induction g2 as [|x g2 IH]; intros g1 q EG W RR S DONE.
  - cbn [map List.combine cache_files]. exists q. split; [reflexivity|]. rewrite app_nil_r in EG. intros k i K. apply DONE. rewrite <- EG. exact K.
  - set (k0 := length g1). assert (K0 : (k0 < length g)%nat) by (rewrite EG, app_length; cbn [length]; lia).
    assert (NX : nth k0 g no_input = x) by (rewrite EG, app_nth2 by (unfold k0; lia); unfold k0; rewrite Nat.sub_diag; reflexivity).
    assert (NN : nth k0 nts 0 = r_nt (fst x)). { pose proof (nts_nth key fl k0 K0) as Q. change (nth k0 nts 0 = r_nt (fst (nth k0 g no_input))) in Q. rewrite Q, NX. reflexivity. }
    destruct (m_file k0 K0) as (F & HT & FB & FM & NSE). rewrite NX in F, HT, FB, FM, NSE.
    destruct (firstn_sum (m_lens r) k0 (m_lens_pos r R) ltac:(rewrite m_lens_len; exact K0)) as (O1 & O2). pose proof (m_lens_nth r k0 K0) as LK. rewrite LK in O2. rewrite NN in LK, O2. set (lo := zsum (firstn k0 (m_lens r))) in *.
    assert (N0 : 0 <= r_nt (fst x)) by apply F. pose proof (m_sz r _ R N0) as SZ0. pose proof (fun i => m_bound r k0 i R K0) as BD. rewrite LK, NN in BD. pose proof (m_nts_le k0 K0) as NL. rewrite NN in NL.
    destruct x as (rd, f). cbn [fst snd] in *. cbn [map List.combine cache_files]. unfold readTraceNonContiguous. rewrite NSE. destruct sort_usable as (FR & FO).
    set (o := off_of (r_nt rd) (Z.of_nat p) (Z.of_nat r)) in *. set (sz := sz_of (r_nt rd) (Z.of_nat p) (Z.of_nat r)) in *.
    assert (LL : length (m_il r (r_nt rd)) = Z.to_nat sz) by apply m_il_len.
    destruct (read_spec maxSize (sizes k0) (r_format rd) ns (r_nt rd) (Listed (m_il r (r_nt rd))) None (Some q) lo f M2 F) as (t' & q' & RE & _ & _ & _ & BB).
    { cbn [tvalid]. apply Forall_forall. intros y Y. unfold m_il in Y. apply in_map_iff in Y. destruct Y as (i & <- & I). apply in_zr in I. fold o. apply BD. exact I. }
    { exact HT. } { intros; apply FB. } { exact FM. } { right; discriminate. }
    { intros q0 Q. injection Q as <-. split; [exact W|]. rewrite RR. split; [exact FR|]. split; [exact FO|]. split; [unfold labelled; rewrite RR; apply sort_label|]. cbn [tcount]. rewrite LL, S. lia. }
    fold k0 lo. cbn [fst]. rewrite RE. cbn [obind]. destruct (BB _ eq_refl) as (sq & -> & WQ & RQ & SQ & DQ & _ & KQ & _). clear BB RE. rewrite RR in RQ, DQ, KQ. cbn [obind tcount tpos] in *. rewrite LL in DQ, KQ.
    assert (NI : forall i, 0 <= i < sz -> nth (Z.to_nat i) (m_il r (r_nt rd)) 0 = o + i) by (intros i I; apply m_il_nth; exact I).
    pose proof m_small as SM. change (2 ^ 63) with 9223372036854775808 in SM.
    unfold number_rows. rewrite zr_nat.
    destruct (number_spec2 off lo nf (Z.of_nat k0) (m_il r (r_nt rd)) (length (m_il r (r_nt rd))) sq WQ RQ O1 ltac:(rewrite LL, SQ, S; lia)) as (q2 & EQ & WQ2 & RQ2 & SQ2 & GN & GO & GF).
    { intros i I. rewrite LL in I. rewrite NI by lia. specialize (BD i ltac:(lia)). pose proof (m_label k0 (o + i) K0 ltac:(lia)) as LB. change (2 ^ 63) with 9223372036854775808 in LB. unfold in_u64, two64. lia. }
    rewrite EQ. cbn [obind]. clear EQ.
    assert (LEN : length (g1 ++ [(rd, f)]) = Datatypes.S k0) by (rewrite app_length; cbn [length]; fold k0; lia).
    assert (FS : zsum (firstn (Datatypes.S k0) (m_lens r)) = lo + sz).
    { rewrite zsum_firstn_S by (rewrite m_lens_len; exact K0). rewrite LK. reflexivity. }
    destruct (IH (g1 ++ [(rd, f)]) q2) as (p' & E & H).
    { rewrite <- app_assoc. exact EG. } { exact WQ2. } { exact RQ2. } { congruence. }
    { rewrite LEN. intros k i K I. destruct (Nat.eq_dec k k0) as [->|NE].
      - rewrite LK in I. rewrite NN. cbv zeta. fold lo o. unfold file_of. rewrite NX. cbn [snd]. destruct (GN i ltac:(rewrite LL; lia)) as (G2 & G1). rewrite NI in G1, G2 by exact I. split; [|split; [exact G1|exact G2]].
        intros m e v L D. assert (NM : m <> 1 /\ m <> 2).
        { destruct sort_label as (e1 & L1 & T1). destruct sort_glabel as (e2 & L2 & T2). split; intros EM; rewrite EM in L; [exact (index_not_decoded _ _ _ _ _ _ L1 T1 L D)|exact (index_not_decoded _ _ _ _ _ _ L2 T2 L D)]. }
        rewrite GO by (first [lia|apply NM]). rewrite (Z.add_comm lo). apply (DQ i m e v ltac:(lia) L). rewrite NI by exact I. exact D.
      - assert (KL : (k < k0)%nat) by lia. assert (PB : 0 <= zsum (firstn k (m_lens r)) + i < lo).
        { destruct (firstn_sum (firstn k0 (m_lens r)) k) as (P1 & P2).
          { apply Forall_forall. intros y Y. apply (proj1 (Forall_forall _ _) (m_lens_pos r R)). rewrite <- (firstn_skipn k0 (m_lens r)). apply in_or_app. left. exact Y. }
          { rewrite firstn_length, m_lens_len. lia. }
          rewrite firstn_firstn, Nat.min_l in P1, P2 by lia. assert (NK : nth k (firstn k0 (m_lens r)) 0 = nth k (m_lens r) 0). { rewrite <- (firstn_skipn k0 (m_lens r)) at 2. rewrite app_nth1; [reflexivity|]. rewrite firstn_length, m_lens_len. lia. }
          rewrite NK in P2. unfold lo. lia. }
        cbv zeta. apply (row_kept q); [|apply (DONE k i KL I)]. intros m e L. rewrite GF by exact PB. apply (KQ _ m e); [lia|left; lia|exact L]. }
    rewrite LEN, FS in E. exists p'. split; [|exact H]. replace (lo + Z.of_nat (length (m_il r (r_nt rd)))) with (lo + sz) by (rewrite LL; lia). exact E.
Qed.
(** The trace with label l. *)
Definition m_trace (l : Z) : nat * Z := (Z.to_nat (l mod nf), l / nf).
Lemma m_trace_label k a : (k < length g)%nat -> m_trace (a * nf + Z.of_nat k) = (k, a).
Proof. intros K. pose proof m_nf as N. unfold m_trace. assert (Z.of_nat k < nf) by (unfold nf; lia). rewrite (Z.add_comm (a * nf)), Z.mod_add, Z.div_add, Z.mod_small, Z.div_small by lia. rewrite Nat2Z.id. f_equal. Qed.
Definition m_row (c : Z * Z) : geo * Z := (trace_geo g ns (m_trace (snd c)), fst c).
Lemma m_pieces r : (r < p)%nat -> ilsts (Z.of_nat p) (Z.of_nat r) nts = map (fun n => mkPiece (off_of n (Z.of_nat p) (Z.of_nat r)) (sz_of n (Z.of_nat p) (Z.of_nat r))) nts.
Proof. intros R. unfold ilsts. apply map_ext_in. intros n N. unfold ilst. rewrite block_decomposition_exact by (first [apply (proj1 (Forall_forall _ _) m_u64 n N)|lia]). reflexivity. Qed.
Lemma m_sizes r : (r < p)%nat -> map local_size (ilsts (Z.of_nat p) (Z.of_nat r) nts) = m_lens r.
Proof. intros R. rewrite m_pieces, map_map by exact R. reflexivity. Qed.
Lemma m_ilst r : (r < p)%nat -> map f_ilst (group_files key fl p r) = map (fun x => m_il r (r_nt (fst x))) g.
Proof.
  intros R. rewrite m_files by exact R. assert (G : forall l off, map f_ilst (m_entries r l off) = map (m_il r) l) by (induction l as [|n l IH]; intros off; [reflexivity|]; cbn [m_entries map]; f_equal; apply IH).
  rewrite G. unfold nts. rewrite map_map. reflexivity.
Qed.
Lemma m_lnt r : (r < p)%nat -> group_lnt (group_files key fl p) r = zsum (m_lens r).
Proof.
  intros R. unfold group_lnt. rewrite <- (map_map f_ilst (fun l => Z.of_nat (length l))), m_ilst by exact R. rewrite map_map. f_equal. unfold m_lens, nts. rewrite map_map. apply map_ext_in. intros x X. rewrite m_il_len.
  pose proof (m_sz r (r_nt (fst x)) R). assert (0 <= r_nt (fst x)) by (apply (proj1 (Forall_forall _ _) m_pos); unfold nts; apply in_map_iff; exists x; auto). lia.
Qed.
Definition m_off (r : nat) : Z := zsum (map (fun q => zsum (m_lens q)) (seq 0 r)).
Lemma m_off_group r : (r <= p)%nat -> zsum (map (group_lnt (group_files key fl p)) (seq 0 r)) = m_off r /\ zsum (map (fun q => cache_lnt (Z.of_nat p) (Z.of_nat q) nts) (seq 0 r)) = m_off r.
Proof.
  intros R. unfold m_off. split; f_equal; apply map_ext_in; intros q Q; apply in_seq in Q; [apply m_lnt; lia|]. unfold cache_lnt. rewrite m_sizes by lia. reflexivity.
Qed.
Lemma m_off_sum r : (r <= p)%nat -> m_off r = zsum (map (fun n => off_of n (Z.of_nat p) (Z.of_nat r)) nts).
Proof.
  induction r as [|r IH]; intros R.
  - cbn [m_off seq map]. unfold m_off. cbn [seq map]. change (zsum []) with 0. pose proof m_pos as F. clear -F P. induction F as [|n l N F IH]; [reflexivity|]. cbn [map]. unfold zsum in *. cbn [fold_right]. change (Z.of_nat 0) with 0 in *. rewrite off_0, <- IH by lia. reflexivity.
  - unfold m_off in *. rewrite seq_S, map_app, zsum_app, IH by lia. cbn [map Nat.add]. unfold zsum at 2. cbn [fold_right]. unfold m_lens. pose proof m_pos as F. clear -F P R. replace (Z.of_nat (Datatypes.S r)) with (Z.of_nat r + 1) by lia.
    induction F as [|n l N F IH]; [reflexivity|]. cbn [map]. unfold zsum in *. cbn [fold_right]. rewrite off_step by lia. lia.
Qed.
Lemma m_off_bound r : (r < p)%nat -> 0 <= m_off r /\ m_off r + zsum (m_lens r) <= nt.
Proof.
  intros R. assert (NX : m_off (Datatypes.S r) = m_off r + zsum (m_lens r)). { unfold m_off. rewrite seq_S, map_app, zsum_app. cbn [map Nat.add]. unfold zsum at 3. cbn [fold_right]. lia. }
  rewrite <- NX, !m_off_sum by lia. unfold nt. pose proof m_pos as F. clear -F P R. induction F as [|n l N F IH]; [cbn; lia|]. cbn [map]. unfold zsum in *. cbn [fold_right].
  assert (0 <= off_of n (Z.of_nat p) (Z.of_nat r)) by (rewrite <- (off_0 n (Z.of_nat p)) by lia; apply off_mono; lia). assert (off_of n (Z.of_nat p) (Z.of_nat (Datatypes.S r)) <= n) by (rewrite <- (off_p n (Z.of_nat p)) at 2 by lia; apply off_mono; lia). lia.
Qed.
Lemma m_cache_at r k j : (r < p)%nat -> (k < length g)%nat -> 0 <= j < nth k (m_lens r) 0 -> let a := off_of (nth k nts 0) (Z.of_nat p) (Z.of_nat r) + j in
  nth_error (cache p nts r) (Z.to_nat (zsum (firstn k (m_lens r)) + j)) = Some (m_off r + zsum (firstn k (m_lens r)) + a, a * nf + Z.of_nat k).
Proof.
  intros R K J a. unfold cache. rewrite (proj2 (m_off_group r ltac:(lia))). pose proof (m_sizes r R) as MS. set (pcs := ilsts (Z.of_nat p) (Z.of_nat r) nts) in *.
  assert (NK : nth k pcs (mkPiece 0 0) = mkPiece (off_of (nth k nts 0) (Z.of_nat p) (Z.of_nat r)) (sz_of (nth k nts 0) (Z.of_nat p) (Z.of_nat r))).
  { unfold pcs. rewrite m_pieces by exact R. set (h := fun n => mkPiece (off_of n (Z.of_nat p) (Z.of_nat r)) (sz_of n (Z.of_nat p) (Z.of_nat r))). rewrite (nth_indep _ (mkPiece 0 0) (h 0)) by (rewrite map_length; unfold nts; rewrite map_length; exact K). apply (map_nth h). }
  assert (FP : Forall (fun pc => 0 <= local_size pc) pcs). { apply Forall_forall. intros pc I. apply (proj1 (Forall_forall _ _) (m_lens_pos r R)). rewrite <- MS. apply in_map. exact I. }
  assert (LP : length pcs = length g) by (rewrite <- (map_length local_size), MS; apply m_lens_len). assert (LN : length nts = length g) by (unfold nts; apply map_length).
  pose proof (cache_at (m_off r) (Z.of_nat (length nts)) pcs 0 0 k j FP ltac:(lia)) as Q. rewrite NK, MS in Q. cbn [local_size global_offset] in Q. rewrite LN in Q |- *. fold nf in Q |- *. rewrite m_lens_nth in J by exact K. rewrite (Q J). unfold a. do 2 f_equal; lia.
Qed.
Lemma m_cache_len r : (r < p)%nat -> Z.of_nat (length (cache p nts r)) = zsum (m_lens r).
Proof.
  intros R. unfold cache. rewrite cache_len, m_sizes by (first [exact R|idtac]; apply Forall_forall; intros pc I; apply (proj1 (Forall_forall _ _) (m_lens_pos r R)); rewrite <- m_sizes by exact R; apply in_map; exact I). reflexivity.
Qed.
Lemma m_rows sizes r : (r < p)%nat -> group_rows maxSize sizes g (group_files key fl p) r = Some (map m_row (cache p nts r)).
Proof.
  intros R. unfold group_rows. rewrite m_lnt, (proj1 (m_off_group r ltac:(lia))) by exact R.
  assert (LF : length (group_files key fl p r) = length g) by (rewrite <- (map_length f_ilst), m_ilst, map_length by exact R; reflexivity). rewrite LF, m_ilst by exact R. fold nf.
  destruct (m_off_bound r R) as (B1 & B2). assert (L0 : 0 <= zsum (m_lens r)) by (rewrite <- m_cache_len by exact R; lia).
  destruct (m_cached (sizes r) r (m_off r) R B1 B2 g [] (newParam sort_rule (zsum (m_lens r))) eq_refl) as (p' & E & H).
  { apply newParam_wf; [apply sort_good|lia]. } { reflexivity. } { reflexivity. } { intros k i K. cbn in K. lia. }
  cbn [length firstn] in E. change (zsum []) with 0 in E. rewrite E. cbn [obind]. apply (omap_nth _ _ no_row); [rewrite map_length; pose proof (m_cache_len r R); lia|]. intros b Hb.
  destruct (located (m_lens r) (m_lens_pos r R) b Hb) as (k & i & K & I & EB). rewrite m_lens_len in K. destruct (m_file k K) as (_ & _ & FB & _). pose proof (m_bound r k i R K I) as BD. pose proof (m_nts_le k K) as NL.
  destruct (firstn_sum (m_lens r) k (m_lens_pos r R) ltac:(rewrite m_lens_len; exact K)) as (O1 & O2). set (a := off_of (nth k nts 0) (Z.of_nat p) (Z.of_nat r) + i) in *. pose proof (m_label k a K ltac:(lia)) as LB. pose proof m_small as SM. change (2 ^ 63) with 9223372036854775808 in *.
  rewrite EB. rewrite (row_sorts p' _ (file_of g k) ns a (a * nf + Z.of_nat k) _ FB (H k i K I)) by (unfold in_s64; lia). f_equal. symmetry. apply nth_error_nth. rewrite nth_error_map, m_cache_at by assumption. cbn [option_map]. unfold m_row. cbn [fst snd]. fold a. rewrite m_trace_label by exact K. reflexivity.
Qed.

(** ---- the sort, when the numbers increase ---- *)
Let C := all p (cache p nts).
Context (STEP : StronglySorted Z.lt (map fst C)) (FOUR : forall r, (r < p)%nat -> (4 <= length (cache p nts r))%nat).
Lemma m_snd : NoDup (map snd C). Proof. apply (C55_local_numbers p nts P m_u64). Qed.
Lemma m_in_C c : In c C -> exists r k j, (r < p)%nat /\ (k < length g)%nat /\ 0 <= j < nth k (m_lens r) 0 /\
  snd c = (off_of (nth k nts 0) (Z.of_nat p) (Z.of_nat r) + j) * nf + Z.of_nat k.
Proof.
  intros I. apply all_in in I. destruct I as (r & R & I). apply In_nth_error in I. destruct I as (n & N). assert (L : (n < length (cache p nts r))%nat) by (apply nth_error_Some; rewrite N; discriminate).
  destruct (located (m_lens r) (m_lens_pos r R) (Z.of_nat n)) as (k & j & K & J & E); [rewrite <- m_cache_len by exact R; lia|]. rewrite m_lens_len in K. exists r, k, j. repeat (split; [assumption|]).
  pose proof (m_cache_at r k j R K J) as Q. cbv zeta in Q. rewrite <- E, Nat2Z.id, N in Q. injection Q as ->. reflexivity.
Qed.
Lemma m_trace_in c : In c C -> let x := m_trace (snd c) in (fst x < length g)%nat /\ 0 <= snd x < nth (fst x) nts 0 /\ snd c = snd x * nf + Z.of_nat (fst x).
Proof. intros I. destruct (m_in_C c I) as (r & k & j & R & K & J & ->). rewrite m_trace_label by exact K. cbn [fst snd]. split; [exact K|]. split; [apply m_bound; assumption|reflexivity]. Qed.
Lemma m_geo c : In c C -> finite_geo (trace_geo g ns (m_trace (snd c))) /\ g_ltn (trace_geo g ns (m_trace (snd c))) = snd c.
Proof. intros I. destruct (m_trace_in c I) as (K & _ & E). split; [unfold trace_geo; apply geo_finite; apply (m_file _ K)|]. unfold trace_geo, header_geo. cbn [g_ltn]. fold nf. symmetry. exact E. Qed.
Lemma m_inj x y : In x C -> In y C -> snd x = snd y -> x = y.
Proof.
  intros X Y E. pose proof m_snd as ND. revert X Y E ND. generalize C. clear. intros l. induction l as [|c l IH]; intros X Y E ND; [destruct X|]. cbn [map] in ND. inversion ND as [|? ? N1 N2]; subst.
  destruct X as [<-|X], Y as [<-|Y]; [reflexivity| | |apply IH; assumption]; exfalso; apply N1; [rewrite E|rewrite <- E]; apply in_map; assumption.
Qed.
Lemma m_total type : 35 <= type <= 43 -> strict_total (fun x => In x (map m_row C)) (by_type type).
Proof.
  intros T. set (G := fun a => exists c, In c C /\ a = trace_geo g ns (m_trace (snd c))).
  destruct (C50_orders_total type G T) as (T1 & T2 & T3).
  { intros a (c & I & ->). apply m_geo, I. }
  { intros a b (c & I & ->) (d & J & ->) E. rewrite (proj2 (m_geo c I)), (proj2 (m_geo d J)) in E. rewrite E. reflexivity. }
  assert (IG : forall x, In x (map m_row C) -> G (fst x)) by (intros x X; apply in_map_iff in X; destruct X as (c & <- & X); exists c; split; [exact X|reflexivity]).
  unfold by_type. split; [intros x X; apply T1, IG, X|]. split; [intros x y z X Y Z; apply T2; apply IG; assumption|].
  intros x y X Y A1 A2. pose proof (T3 _ _ (IG x X) (IG y Y) A1 A2) as E. apply in_map_iff in X. destruct X as (c & <- & X). apply in_map_iff in Y. destruct Y as (d & <- & Y). cbn [m_row fst] in E.
  assert (ES : snd c = snd d) by (apply (f_equal g_ltn) in E; rewrite (proj2 (m_geo c X)), (proj2 (m_geo d Y)) in E; exact E). rewrite (m_inj c d X Y ES). reflexivity.
Qed.
Lemma m_numbers : map snd (map m_row C) = map fst C. Proof. rewrite map_map. reflexivity. Qed.
Lemma m_nodup : NoDup (map m_row C).
Proof.
  apply (NoDup_map_inv snd). rewrite m_numbers. revert STEP. generalize (map fst C). clear. intros l S. induction S as [|x l S IH F]; constructor; [|exact IH]. intros I. rewrite Forall_forall in F. specialize (F x I). lia.
Qed.
Lemma m_apart : told_apart snd (map m_row C).
Proof.
  intros x y X Y E. apply in_map_iff in X. destruct X as (c & <- & X). apply in_map_iff in Y. destruct Y as (d & <- & Y). cbn [m_row snd] in E. f_equal.
  revert X Y. pose proof STEP as SS. revert SS. generalize C. clear -E. intros l. induction l as [|a l IH]; intros SS X Y; [destruct X|]. cbn [map] in SS. inversion SS as [|? ? S1 S2]; subst. rewrite Forall_forall in S2.
  destruct X as [<-|X], Y as [<-|Y]; [reflexivity| | |apply IH; assumption]; exfalso; [specialize (S2 _ (in_map fst _ _ Y))|specialize (S2 _ (in_map fst _ _ X))]; lia.
Qed.
Let rows r := nth r (map (fun r => map m_row (cache p nts r)) (seq 0 p)) [].
Lemma m_rows_at r : (r < p)%nat -> rows r = map m_row (cache p nts r).
Proof. intros R. unfold rows. rewrite (nth_indep _ [] ((fun r => map m_row (cache p nts r)) 0%nat)) by (rewrite map_length, seq_length; exact R). rewrite (map_nth (fun r => map m_row (cache p nts r))), seq_nth by exact R. reflexivity. Qed.
Lemma m_rows_all : all p rows = map m_row C.
Proof. rewrite (all_ext p rows (fun r => map m_row (cache p nts r)) m_rows_at). apply all_map. Qed.
Lemma m_rows_len r : (r < p)%nat -> length (rows r) = length (cache p nts r). Proof. intros R. rewrite m_rows_at, map_length by exact R. reflexivity. Qed.
Lemma m_sort_eq fuel fuel2 sizes srt type : sort_set fuel fuel2 maxSize sizes srt type g (group_files key fl p) p =
  obind (option_map snd (sort_metadata fuel fuel2 srt (by_type type) snd no_row p rows)) (fun pos =>
  obind (omap (fun r => hand_olst 0 (group_files key fl p r) (pos r)) (seq 0 p)) (fun l => Some (fun r => nth r l []))).
Proof.
  unfold sort_set. rewrite (omap_total _ (fun r => map m_row (cache p nts r))) by (intros r R; apply in_seq in R; apply m_rows; lia). cbn [obind]. unfold sort_positions. change (existsb _ _) with (existsb (fun r => Nat.ltb (length (rows r)) 3) (seq 0 p)).
  assert (E : existsb (fun r => Nat.ltb (length (rows r)) 3) (seq 0 p) = false).
  { apply not_true_iff_false. intros E. apply existsb_exists in E. destruct E as (r & R & E). apply in_seq in R. apply Nat.ltb_lt in E. rewrite m_rows_len in E by lia. specialize (FOUR r ltac:(lia)). lia. }
  rewrite E. reflexivity.
Qed.
Fixpoint m_cut (r j : nat) (nts : list Z) (tr : list Z) : list fdesc :=
  match nts with [] => [] | n :: nts => let sz := Z.to_nat (sz_of n (Z.of_nat p) (Z.of_nat r)) in mkFd key n (m_il r n) (firstn sz (skipn j tr)) :: m_cut r (j + sz) nts tr end.
Lemma m_hand r tr : (r < p)%nat -> forall nts j off, Forall (fun n => 0 <= n) nts -> (j + Z.to_nat (zsum (map (fun n => sz_of n (Z.of_nat p) (Z.of_nat r)) nts)) <= length tr)%nat -> hand_olst j (m_entries r nts off) tr = Some (m_cut r j nts tr).
Proof.
  intros R. clear -R. induction nts as [|n l IH]; intros j off F L; [reflexivity|]. inversion F as [|? ? F1 F2]; subst. cbn [map] in L. set (z := map (fun n => sz_of n (Z.of_nat p) (Z.of_nat r)) l) in *. change (zsum (sz_of n (Z.of_nat p) (Z.of_nat r) :: z)) with (sz_of n (Z.of_nat p) (Z.of_nat r) + zsum z) in L. cbn [m_entries hand_olst m_cut].
  pose proof (m_size p r n R F1) as S0. assert (0 <= zsum z). { unfold z. clear -F2 R. induction F2 as [|x l X F IH]; [cbn; lia|]. cbn [map]. unfold zsum in *. cbn [fold_right]. pose proof (m_size p r x R X). lia. }
  assert (LO : length (f_olst (entry (Z.of_nat p) (Z.of_nat r) (key, n) off)) = Z.to_nat (sz_of n (Z.of_nat p) (Z.of_nat r))) by (unfold entry; cbn [f_olst fst snd]; rewrite map_length, length_zr; reflexivity).
  rewrite LO. replace (Nat.leb (j + Z.to_nat (sz_of n (Z.of_nat p) (Z.of_nat r))) (length tr)) with true by (symmetry; apply Nat.leb_le; lia). rewrite IH by (first [exact F2|unfold z in *; lia]). reflexivity.
Qed.
Lemma m_cut_len r tr : forall l j, length (m_cut r j l tr) = length l. Proof. induction l as [|n l IH]; intros j; [reflexivity|]. cbn [m_cut length]. rewrite IH. reflexivity. Qed.
Lemma m_cut_nth r tr : (r < p)%nat -> forall l j k, Forall (fun n => 0 <= n) l -> (k < length l)%nat ->
  nth k (m_cut r j l tr) no_fd = mkFd key (nth k l 0) (m_il r (nth k l 0)) (firstn (Z.to_nat (sz_of (nth k l 0) (Z.of_nat p) (Z.of_nat r))) (skipn (j + Z.to_nat (zsum (firstn k (map (fun n => sz_of n (Z.of_nat p) (Z.of_nat r)) l)))) tr)).
Proof.
  intros R. clear -R. induction l as [|n l IH]; intros j k F K; [cbn in K; lia|]. inversion F as [|? ? F1 F2]; subst. destruct k as [|k]; cbn [m_cut nth map firstn].
  - change (zsum []) with 0. rewrite Nat.add_0_r. reflexivity.
  - rewrite IH by (first [exact F2|cbn in K; lia]). set (z := firstn k (map (fun n => sz_of n (Z.of_nat p) (Z.of_nat r)) l)). change (zsum (sz_of n (Z.of_nat p) (Z.of_nat r) :: z)) with (sz_of n (Z.of_nat p) (Z.of_nat r) + zsum z).
    assert (0 <= zsum z). { unfold z. clear -F2 R. revert k. induction F2 as [|x l X F IH]; intros [|k]; cbn [map firstn]; try (cbn; lia). specialize (IH k). unfold zsum in *. cbn [fold_right]. pose proof (m_size p r x R X). lia. }
    pose proof (m_size p r n R F1). replace (j + Z.to_nat (sz_of n (Z.of_nat p) (Z.of_nat r)) + Z.to_nat (zsum z))%nat with (j + Z.to_nat (sz_of n (Z.of_nat p) (Z.of_nat r) + zsum z))%nat by lia. reflexivity.
Qed.
Lemma m_rows_four r : (r < p)%nat -> (4 <= length (rows r))%nat. Proof. intros R. rewrite m_rows_len by exact R. apply FOUR. exact R. Qed.
Lemma m_handed fuel fuel2 srt type out final : std_sort srt -> 35 <= type <= 43 -> sort_metadata fuel fuel2 srt (by_type type) snd no_row p rows = Some (out, final) ->
  (forall r, (r < p)%nat -> length (final r) = length (cache p nts r)) /\ omap (fun r => hand_olst 0 (group_files key fl p r) (final r)) (seq 0 p) = Some (map (fun r => m_cut r 0 nts (final r)) (seq 0 p)).
Proof.
  intros S T H. destruct (C55_final_places _ srt (by_type type) snd no_row p rows fuel fuel2 out final S P m_rows_four) as (_ & _ & L); try assumption.
  { rewrite m_rows_all. apply total_weak, m_total, T. } { rewrite m_rows_all, m_numbers. exact STEP. }
  assert (LN : forall r, (r < p)%nat -> length (final r) = length (cache p nts r)) by (intros r R; rewrite (L r R); apply m_rows_len; exact R). split; [exact LN|].
  apply omap_total. intros r R. apply in_seq in R. rewrite m_files by lia. apply m_hand; [lia|apply m_pos|]. fold (m_lens r). pose proof (m_cache_len r ltac:(lia)). rewrite LN by lia. lia.
Qed.
Lemma m_defined sizes srt type : std_sort srt -> 35 <= type <= 43 ->
  exists n, forall fuel, (n <= fuel)%nat -> exists n2, forall fuel2, (n2 <= fuel2)%nat -> exists fds', sort_set fuel fuel2 maxSize sizes srt type g (group_files key fl p) p = Some fds'.
Proof.
  intros S T. destruct (C53_terminates _ srt (by_type type) snd no_row p rows S P) as (n & H).
  { rewrite m_rows_all. apply m_total, T. } { rewrite m_rows_all. apply m_nodup. } { rewrite m_rows_all. apply m_apart. }
  exists n. intros fuel FU. destruct (H fuel FU) as (n2 & H2). exists n2. intros fuel2 FU2. destruct (H2 fuel2 FU2) as ((out, final) & E). rewrite m_sort_eq, E. cbn [option_map obind snd].
  destruct (m_handed _ _ _ _ _ _ S T E) as (_ & ->). cbn [obind]. eauto.
Qed.
Lemma m_every : Permutation (map (fun c => m_trace (snd c)) C) (every_trace nts).
Proof.
  assert (ND1 : NoDup (map (fun c => m_trace (snd c)) C)).
  { apply (NoDup_map_inv (fun x => snd x * nf + Z.of_nat (fst x))). rewrite map_map. rewrite (map_ext_in _ snd); [exact m_snd|]. intros c I. symmetry. apply (m_trace_in c I). }
  assert (ND2 : NoDup (every_trace nts)).
  { apply (NoDup_map_inv (fun x => zsum (firstn (fst x) nts) + snd x)). unfold every_trace. rewrite <- locate_all, map_map by apply m_pos.
    rewrite (map_ext_in _ (fun b => b)); [rewrite map_id; unfold zr; apply nodup_zrange|]. intros b Hb. apply in_zr in Hb. destruct (located nts m_pos b Hb) as (k & i & K & I & ->). rewrite locate_spec by (first [apply m_pos|assumption]). reflexivity. }
  apply NoDup_Permutation; [exact ND1|exact ND2|]. intros (k, a). unfold every_trace. rewrite <- locate_all by apply m_pos. fold nt. rewrite !in_map_iff. split.
  - intros (c & E & I). destruct (m_trace_in c I) as (K & A & _). rewrite E in K, A. cbn [fst snd] in K, A. destruct (firstn_sum nts k m_pos ltac:(unfold nts; rewrite map_length; exact K)) as (O1 & O2). fold nt in O2.
    exists (zsum (firstn k nts) + a). split; [apply locate_spec; [apply m_pos|unfold nts; rewrite map_length; exact K|exact A]|]. apply in_zr. lia.
  - intros (b & E & Hb). apply in_zr in Hb. destruct (located nts m_pos b Hb) as (k' & i & K & I & EB). rewrite EB, locate_spec in E by (first [apply m_pos|assumption]). cbn [Nat.add] in E. injection E as -> ->.
    assert (N64 : in_u64 (nth k nts 0)) by (apply (proj1 (Forall_forall _ _) m_u64), nth_In; exact K). assert (KG : (k < length g)%nat) by (unfold nts in K; rewrite map_length in K; exact K).
    assert (IN : In a (flat_map (fun r => map (fun i => off_of (nth k nts 0) (Z.of_nat p) (Z.of_nat r) + i) (zr (sz_of (nth k nts 0) (Z.of_nat p) (Z.of_nat r)))) (seq 0 p))).
    { rewrite (pieces_tile _ (Z.of_nat p) N64 ltac:(lia) p ltac:(lia)). rewrite off_p by (destruct N64; lia). apply in_zr. exact I. }
    apply in_flat_map in IN. destruct IN as (r & R & IM). apply in_seq in R. apply in_map_iff in IM. destruct IM as (j & EJ & J). apply in_zr in J. rewrite <- m_lens_nth in J by exact KG.
    pose proof (m_cache_at r k j ltac:(lia) KG J) as Q. cbv zeta in Q. rewrite EJ in Q. apply nth_error_In in Q. eexists. split; [|apply all_in; exists r; split; [lia|exact Q]]. cbn [snd]. apply m_trace_label. exact KG.
Qed.
Lemma m_result fuel fuel2 sizes srt type fds' : std_sort srt -> 35 <= type <= 43 -> sort_set fuel fuel2 maxSize sizes srt type g (group_files key fl p) p = Some fds' ->
  exists perm, Permutation perm (every_trace nts) /\ StronglySorted (fun a b => ~ lex (keys type (trace_geo g ns b)) (keys type (trace_geo g ns a))) perm /\
  placed p nt nts fds' (fun b => nth (Z.to_nat b) perm (0%nat, 0)).
Proof.
  intros S T H. rewrite m_sort_eq in H. destruct (sort_metadata _ _ _ _ _ _ _ _) as [(out, final)|] eqn:E; [|discriminate]. cbn [option_map obind snd] in H.
  destruct (m_handed _ _ _ _ _ _ S T E) as (LN & HO). rewrite HO in H. cbn [obind] in H. injection H as <-.
  destruct (C55_final_places _ srt (by_type type) snd no_row p rows fuel fuel2 out final S P m_rows_four) as (FP & PF & _); try assumption.
  { rewrite m_rows_all. apply total_weak, m_total, T. } { rewrite m_rows_all, m_numbers. exact STEP. }
  destruct (C52_sorted_permutation _ srt (by_type type) snd no_row p rows fuel fuel2 out final S P m_rows_four) as (PO & SO & _); try assumption.
  { rewrite m_rows_all. apply total_weak, m_total, T. } { rewrite m_rows_all. apply m_apart. }
  assert (LC : length C = Z.to_nat nt). { rewrite <- (map_length (fun c => m_trace (snd c))), (Permutation_length m_every). unfold every_trace. rewrite <- locate_all, map_length, length_zr by apply m_pos. reflexivity. }
  rewrite m_rows_all, map_length, LC, Z2Nat.id in PF by lia. pose proof PO as PO'. rewrite m_rows_all in PO.
  assert (LTN : forall x, In x (all p out) -> exists c, In c C /\ x = m_row c) by (intros x X; apply (Permutation_in _ (Permutation_sym PO)) in X; apply in_map_iff in X; destruct X as (c & <- & I); exists c; auto).
  set (perm := map (fun x : geo * Z => m_trace (g_ltn (fst x))) (all p out)). exists perm. split; [|split].
  - unfold perm. rewrite (Permutation_map (fun x : geo * Z => m_trace (g_ltn (fst x))) (Permutation_sym PO)), map_map. rewrite (map_ext_in _ (fun c => m_trace (snd c))); [apply m_every|]. intros c I. cbn [m_row fst]. rewrite (proj2 (m_geo c I)). reflexivity.
  - assert (ROW : forall x, In x (all p out) -> fst x = trace_geo g ns (m_trace (g_ltn (fst x))) /\ finite_geo (fst x)).
    { intros x X. destruct (LTN x X) as (c & I & ->). cbn [m_row fst]. destruct (m_geo c I) as (F1 & F2). rewrite F2. split; [reflexivity|exact F1]. }
    unfold perm. clear -SO ROW T. unfold sorted in SO. induction SO as [|x l SS IH Q]; [constructor|]. cbn [map]. constructor; [apply IH; intros; apply ROW; right; assumption|].
    rewrite Forall_forall in *. intros z Hz K. apply in_map_iff in Hz. destruct Hz as (y & <- & Y). specialize (Q y Y). unfold by_type in Q. destruct (ROW x (or_introl eq_refl)) as (X1 & X2). destruct (ROW y (or_intror Y)) as (Y1 & Y2). rewrite <- X1, <- Y1 in K.
    apply (C50_orders_compare_keys type (fst y) (fst x) T) in K; [congruence|exact Y2|exact X2].
  - assert (AT : forall r, (r < p)%nat -> nth r (map (fun r => m_cut r 0 nts (final r)) (seq 0 p)) [] = m_cut r 0 nts (final r)).
    { intros r R. rewrite (nth_indep _ [] ((fun r => m_cut r 0 nts (final r)) 0%nat)) by (rewrite map_length, seq_length; exact R). rewrite (map_nth (fun r => m_cut r 0 nts (final r))), seq_nth by exact R. reflexivity. }
    assert (ND : NoDup (all p final)) by (apply (Permutation_NoDup (Permutation_sym PF)); unfold zr; apply nodup_zrange).
    assert (LG : length nts = length g) by (unfold nts; apply map_length).
    constructor; cbv beta.
    + intros r R. rewrite AT by exact R. apply m_cut_len.
    + intros r k R K. rewrite AT by exact R. rewrite m_cut_nth by (first [exact R|apply m_pos|exact K]). cbn [f_ilst f_olst]. rewrite Nat.add_0_l. fold (m_lens r).
      assert (KG : (k < length g)%nat) by (rewrite <- LG; exact K). destruct (firstn_sum (m_lens r) k (m_lens_pos r R) ltac:(rewrite m_lens_len; exact KG)) as (O1 & O2). pose proof (m_lens_nth r k KG) as LK. rewrite LK in O2.
      pose proof (m_cache_len r R) as CL. pose proof (LN r R) as LR. assert (N0 : 0 <= nth k nts 0) by (apply (proj1 (Forall_forall _ _) m_pos), nth_In; exact K). pose proof (m_sz r _ R N0) as SZ0.
      set (sz := sz_of (nth k nts 0) (Z.of_nat p) (Z.of_nat r)) in *. set (o := zsum (firstn k (m_lens r))) in *.
      assert (LO : length (firstn (Z.to_nat sz) (skipn (Z.to_nat o) (final r))) = Z.to_nat sz) by (rewrite firstn_length, skipn_length; lia).
      rewrite m_il_len. fold sz. rewrite LO. split; [reflexivity|]. pose proof (nodup_rank p final r ND R) as NDR. split.
      * apply (NoDup_nth _ 0). rewrite LO. intros a b A Hb Q. rewrite !nth_slice in Q by assumption. apply (proj1 (NoDup_nth (final r) 0) NDR) in Q; lia.
      * intros j J. rewrite nth_slice by exact J. assert (JF : (Z.to_nat o + j < length (final r))%nat) by lia. pose proof (nth_error_nth' _ 0 JF) as NF.
        assert (FI : In (nth (Z.to_nat o + j) (final r) 0) (zr nt)) by (apply (Permutation_in _ PF), all_in; exists r; split; [exact R|apply nth_In; exact JF]). apply in_zr in FI. split; [exact FI|].
        assert (JZ : 0 <= Z.of_nat j < nth k (m_lens r) 0) by lia. pose proof (m_bound r k (Z.of_nat j) R KG JZ) as BD.
        assert (NJ : nth j (m_il r (nth k nts 0)) 0 = off_of (nth k nts 0) (Z.of_nat p) (Z.of_nat r) + Z.of_nat j) by (rewrite <- (Nat2Z.id j) at 1; apply m_il_nth; fold sz; lia). rewrite NJ. split; [exact BD|].
        pose proof (m_cache_at r k (Z.of_nat j) R KG JZ) as CA. cbv zeta in CA. fold o in CA. replace (Z.to_nat (o + Z.of_nat j)) with (Z.to_nat o + j)%nat in CA by lia. set (a := off_of (nth k nts 0) (Z.of_nat p) (Z.of_nat r) + Z.of_nat j) in *.
        assert (RJ : nth_error (rows r) (Z.to_nat o + j) = Some (m_row (m_off r + o + a, a * nf + Z.of_nat k))) by (rewrite m_rows_at by exact R; apply map_nth_error; exact CA).
        assert (SL : forall q, (q < r)%nat -> length (rows q) = length (final q)) by (intros q Q; rewrite m_rows_len, LN by lia; reflexivity).
        assert (LRO : length (rows r) = length (final r)) by (rewrite m_rows_len, LN by exact R; reflexivity).
        assert (A1 : nth_error (all p rows) (length (all r final) + (Z.to_nat o + j)) = Some (m_row (m_off r + o + a, a * nf + Z.of_nat k))).
        { rewrite <- RJ. rewrite <- (all_same_length rows final r SL). apply all_at; [exact R|]. rewrite LRO. exact JF. }
        assert (A2 : nth_error (all p final) (length (all r final) + (Z.to_nat o + j)) = Some (nth (Z.to_nat o + j) (final r) 0)) by (rewrite <- NF; apply all_at; [exact R|exact JF]).
        destruct (FP _ _ A1) as (q & Q1 & Q2). rewrite A2 in Q1. assert (Q1' : nth (Z.to_nat o + j) (final r) 0 = Z.of_nat q) by congruence. rewrite Q1', Nat2Z.id.
        apply nth_error_nth. unfold perm. rewrite nth_error_map, Q2. cbn [option_map m_row fst snd]. assert (IC : In (m_off r + o + a, a * nf + Z.of_nat k) C) by (apply all_in; exists r; split; [exact R|exact (nth_error_In _ _ CA)]).
        pose proof (proj2 (m_geo _ IC)) as GL. cbn [snd] in GL. rewrite GL. rewrite m_trace_label by exact KG. reflexivity.
    + intros b Hb. assert (IB : In b (all p final)) by (apply (Permutation_in _ (Permutation_sym PF)), in_zr; exact Hb). apply all_in in IB. destruct IB as (r & R & IB). apply (In_nth _ _ 0) in IB. destruct IB as (m & Hm & Em).
      pose proof (m_cache_len r R) as CL. pose proof (LN r R) as LR. destruct (located (m_lens r) (m_lens_pos r R) (Z.of_nat m)) as (k & i & K & I & EM); [lia|]. rewrite m_lens_len in K. exists r, k, (Z.to_nat i). split; [exact R|]. split; [rewrite LG; exact K|]. cbv zeta. rewrite AT by exact R. rewrite m_cut_nth by (first [exact R|apply m_pos|rewrite LG; exact K]). cbn [f_ilst f_olst]. fold (m_lens r).
      rewrite m_il_len. rewrite m_lens_nth in I by exact K. split; [lia|]. rewrite nth_slice by lia. destruct (firstn_sum (m_lens r) k (m_lens_pos r R) ltac:(rewrite m_lens_len; exact K)) as (O1 & _). replace (0 + Z.to_nat (zsum (firstn k (m_lens r))) + Z.to_nat i)%nat with m by lia. exact Em.
Qed.
End Ranks.
