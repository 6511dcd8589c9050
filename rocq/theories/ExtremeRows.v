(** Lemmas about the rows the minmax program reads, searches and writes. *)
From Coq Require Import Reals Lra Permutation Sorted.
From Flocq Require Import Core IEEE754.BinarySingleNaN Relative.
From Verif Require Import Base DecompModel DecompSpec DecompProofs NumEncModel NumEncSpec NumEncProofs CharEncModel CharEncProofs LayoutModel LayoutProofs DataIOModel DataIOProofs
  RuleModel RuleProofs DoubleModel ParamModel ParamProofs HeaderProofs ScalarProofs FileSpec FileModel FileProofs WriteSpec WriteProofs RuleProperties ParamProperties ReadProofs OpenProofs FileProperties TraceProperties.
From Verif Require Import SortSpec SortModel SortProofs CompProofs MinMaxModel MinMaxProofs MinMaxProperties FloatModel SetOpsModel ToolModel ToolProperties CopySpec CopyProofs CopyProperties ExampleModel ExampleProofs PieceProofs CreateProofs ModModel ModSpec ModProofs.
From Verif Require SetSortProofs VerifyProofs.
From Verif Require Import SetSortSpec ExtremeModel ExtremeSpec ExtremeProofs.
Import ListNotations.
Open Scope Z_scope.

(** ---- the coordinates of a row ---- *)
Definition mm_fields : list (Z * Z) := [(20, 73); (21, 77); (22, 81); (23, 85); (24, 181); (25, 185)].
Lemma mm_entry m l : In (m, l) mm_fields -> exists e, lookup m (translate default_rule) = Some e /\ e_type e = MFloat /\ e_loc e = l /\ e_scal e = 71.
Proof. intros [E|[E|[E|[E|[E|[E|[]]]]]]]; injection E as <- <-; (eexists; split; [vm_compute; reflexivity|repeat split; reflexivity]). Qed.
Lemma mm_range m l : In (m, l) mm_fields -> 1 <= l <= 237.
Proof. intros [E|[E|[E|[E|[E|[E|[]]]]]]]; injection E as <- <-; lia. Qed.
Lemma held_coordinate p i hd m l : p_rule p = default_rule -> holds p i hd -> (forall x, is_byte (hd x)) -> In (m, l) mm_fields -> getPrm i m p = Some (VF (read_coordinate hd l)).
Proof.
  intros R H B I. destruct (mm_entry m l I) as (e & L & T & EL & ES). apply (H m e); [rewrite R; exact L|]. unfold decode. rewrite T, EL, ES, !Z.add_0_l, !Z.sub_0_r.
  unfold read_coordinate. rewrite int16_rd, int32_rd by (intros; apply B). reflexivity.
Qed.
Lemma pair_held p i hd m1 l1 m2 l2 : wf_param p -> p_rule p = default_rule -> 0 <= i < p_sz p -> holds p i hd -> (forall x, is_byte (hd x)) -> In (m1, l1) mm_fields -> In (m2, l2) mm_fields ->
  pair_at m1 m2 p i = Some (read_coordinate hd l1, read_coordinate hd l2).
Proof.
  intros W R I H B I1 I2. unfold pair_at. rewrite R.
  destruct (same_rule_wf p (newParam default_rule 1) i 0 W) as (v & E & _ & _ & G & _).
  { apply newParam_wf; [apply default_good|lia]. }
  { rewrite R. reflexivity. }
  { intros Q. exfalso. apply Q. rewrite R. vm_compute. reflexivity. }
  { exact I. }
  { cbn. lia. }
  rewrite E. cbn [obind]. rewrite R in G. destruct (mm_entry m1 l1 I1) as (e1 & L1 & _). destruct (mm_entry m2 l2 I2) as (e2 & L2 & _).
  rewrite (G m1 e1 L1), (G m2 e2 L2), (held_coordinate p i hd m1 l1 R H B I1), (held_coordinate p i hd m2 l2 R H B I2). reflexivity.
Qed.
Lemma omap_map {A B} (g : A -> option B) (k : A -> B) l : (forall x, In x l -> g x = Some (k x)) -> omap g l = Some (map k l).
Proof. induction l as [|a l IH]; intros H; [reflexivity|]. cbn [omap map]. rewrite (H a (or_introl eq_refl)). cbn [obind]. rewrite IH by (intros; apply H; right; assumption). reflexivity. Qed.

(** ---- the share of a rank ---- *)
Section Share.
Context (maxSize : Z) (sizes0 : list Z) (f : file) (rd : reader) (RB : readable maxSize sizes0 f rd).
Let ns := r_ns rd.
Let nt := r_nt rd.
Let hdr (a : Z) : mem := disk_header f ns a.
Lemma rb_facts : fits nt ns /\ has_traces f nt ns /\ in_u64 nt /\ 0 <= ns.
Proof.
  destruct RB as [CO CB CS (CM & CM2) CN CT CI]. destruct (open_fits _ _ _ _ CM CB CS CO CN) as (F & HT). fold ns nt in F, HT. clear CO. split; [exact F|]. split; [exact HT|]. pose proof F as (N0 & NT0 & S64 & _).
  split; [|exact N0]. unfold in_u64. assert (nt * 240 <= nt * (240 + 4 * ns)) by (apply Z.mul_le_mono_nonneg_l; lia). lia.
Qed.
Lemma hdr_byte a x : is_byte (hdr a x).
Proof. apply (ra_bytes _ _ _ _ RB). Qed.
Definition rows (l1 l2 off n : Z) : list trc := map (fun j => (read_coordinate (hdr (off + j)) l1, read_coordinate (hdr (off + j)) l2)) (zr n).
Lemma share_rows sizes p r d : 0 <= r < p -> block_decomposition nt p r = Some d ->
  mm_share maxSize sizes rd f p r = Some (mkShare (global_offset d) (rows 73 77 (global_offset d) (local_size d)) (rows 81 85 (global_offset d) (local_size d)) (rows 181 185 (global_offset d) (local_size d))).
Proof.
  intros R D. destruct rb_facts as (F & HT & N64 & N0). unfold mm_share. fold nt. rewrite D. cbn [obind].
  destruct (rw_piece_eq nt p r N64 R) as (d' & D' & _ & O & L & B). rewrite D in D'. injection D' as <-.
  destruct (read_block maxSize sizes rd f (global_offset d) (local_size d) None (proj2 (ra_max _ _ _ _ RB)) F HT (ra_bytes _ _ _ _ RB)) as (trc' & prm & E & W & RU & SZ & H & _); try assumption; try congruence.
  rewrite E. cbn [obind]. clear E.
  assert (X : forall m1 l1 m2 l2, In (m1, l1) mm_fields -> In (m2, l2) mm_fields -> omap (pair_at m1 m2 prm) (zr (local_size d)) = Some (rows l1 l2 (global_offset d) (local_size d))).
  { intros m1 l1 m2 l2 I1 I2. apply omap_map. intros j J. apply in_zr in J. apply (pair_held prm j (hdr (global_offset d + j))); try assumption; [lia|apply H; lia|apply hdr_byte]. }
  rewrite (X 20 73 21 77), (X 22 81 23 85), (X 24 181 25 185) by (cbn; tauto). reflexivity.
Qed.

(** ---- the extremes ---- *)
Lemma row_at l1 l2 off n i t : nth_error (rows l1 l2 off n) i = Some t -> (Z.of_nat i < n)%Z /\ t = (read_coordinate (hdr (off + Z.of_nat i)) l1, read_coordinate (hdr (off + Z.of_nat i)) l2).
Proof.
  intros H. assert (L : (i < length (rows l1 l2 off n))%nat) by (apply nth_error_Some; congruence). unfold rows in *. rewrite map_length in L. unfold zr, zrange in L. rewrite map_length, seq_length in L.
  split; [lia|]. apply (nth_error_nth _ _ (read_coordinate (hdr (off + 0)) l1, read_coordinate (hdr (off + 0)) l2)) in H. rewrite <- H. unfold zr.
  rewrite <- (Nat2Z.id i) at 1. rewrite (nth_map_zrange (fun j => (read_coordinate (hdr (off + j)) l1, read_coordinate (hdr (off + j)) l2)) (Z.to_nat n) (Z.of_nat i)) by lia. reflexivity.
Qed.
Lemma hdr_fin a l : 1 <= l <= 237 -> in_s16 (int16_at (hdr a) 71) /\ in_s32 (int32_at (hdr a) l) /\ fin (read_coordinate (hdr a) l).
Proof.
  intros L. assert (A : in_s16 (int16_at (hdr a) 71)) by (rewrite int16_rd by apply hdr_byte; apply rd16_range). assert (B : in_s32 (int32_at (hdr a) l)) by (rewrite int32_rd by (intros; apply hdr_byte); apply rd32_range).
  split; [exact A|]. split; [exact B|]. apply (read_close (hdr a) l A B).
Qed.
Lemma extreme_of (p : nat) (goff lnt : nat -> Z) (dat : nat -> list trc) l1 l2 e : 1 <= l1 <= 237 ->
  (forall r, (r < p)%nat -> 0 <= goff r /\ 0 <= lnt r /\ goff r + lnt r <= nt) -> (forall a, 0 <= a < nt -> exists r, (r < p)%nat /\ goff r <= a < goff r + lnt r) ->
  (forall r, (r < p)%nat -> dat r = rows l1 l2 (goff r) (lnt r)) ->
  (is_min p goff dat e -> is_extreme f ns nt true l1 (snd e)) /\ (is_max p goff dat e -> is_extreme f ns nt false l1 (snd e)).
Proof.
  intros L1 G C DT. destruct rb_facts as (_ & _ & N64 & _). unfold in_u64 in N64.
  assert (POS : (exists r i t, (r < p)%nat /\ nth_error (dat r) i = Some t /\ fst e = fst t /\ snd e = u64 (goff r + Z.of_nat i)) -> 0 <= snd e < nt /\ fst e = read_coordinate (hdr (snd e)) l1).
  { intros (r & i & t & R & N & V & S). rewrite (DT r R) in N. apply row_at in N. destruct N as (I & T). destruct (G r R) as (G1 & G2 & G3). rewrite u64_small in S by (unfold in_u64; lia).
    split; [lia|]. rewrite V, T, S. reflexivity. }
  assert (ALL : forall a, 0 <= a < nt -> exists r t, (r < p)%nat /\ In t (dat r) /\ fst t = read_coordinate (hdr a) l1).
  { intros a A. destruct (C a A) as (r & R & RA). exists r, (read_coordinate (hdr a) l1, read_coordinate (hdr a) l2). split; [exact R|]. split; [|reflexivity]. rewrite (DT r R). unfold rows. apply in_map_iff.
    exists (a - goff r). split; [replace (goff r + (a - goff r)) with a by lia; reflexivity|]. apply in_zr. lia. }
  split; intros (P & B); destruct (POS P) as (S & V); (split; [exact S|]); intros a A; destruct (ALL a A) as (r & t & R & IT & VT); specialize (B r t R IT); rewrite V, VT in B;
    destruct (hdr_fin (snd e) l1 L1) as (S1 & I1 & F1); destruct (hdr_fin a l1 L1) as (S2 & I2 & F2); rewrite !ext_fin in B by assumption; fold (val (read_coordinate (hdr a) l1)) in B; fold (val (read_coordinate (hdr (snd e)) l1)) in B.
  - destruct (Rlt_le_dec (coordinate (hdr a) l1 71) (coordinate (hdr (snd e)) l1 71)) as [Q|Q]; [|exact Q]. apply (read_order _ _ _ S2 I2 S1 I1) in Q. lra.
  - destruct (Rlt_le_dec (coordinate (hdr (snd e)) l1 71) (coordinate (hdr a) l1 71)) as [Q|Q]; [|exact Q]. apply (read_order _ _ _ S1 I1 S2 I2) in Q. lra.
Qed.
Lemma four (p : nat) (goff lnt : nat -> Z) (dat : nat -> list trc) junk l1 l2 : 1 <= l1 <= 237 -> 1 <= l2 <= 237 -> (0 < nt)%Z ->
  (forall r, (r < p)%nat -> 0 <= goff r /\ 0 <= lnt r /\ goff r + lnt r <= nt) -> (forall a, 0 <= a < nt -> exists r, (r < p)%nat /\ goff r <= a < goff r + lnt r) ->
  (forall r, (r < p)%nat -> dat r = rows l1 l2 (goff r) (lnt r)) ->
  exists x0 x1 y0 y1, getMinMax junk p goff dat = [x0; x1; y0; y1] /\ is_extreme f ns nt true l1 (snd x0) /\ is_extreme f ns nt false l1 (snd x1) /\ is_extreme f ns nt true l2 (snd y0) /\ is_extreme f ns nt false l2 (snd y1).
Proof.
  intros L1 L2 NP G C DT.
  destruct (C57_global_extremes junk p goff dat) as (x0 & x1 & y0 & y1 & E & X0 & X1 & Y0 & Y1).
  { intros r t R T. rewrite (DT r R) in T. unfold rows in T. apply in_map_iff in T. destruct T as (j & <- & _). cbn [fst snd]. split; apply fin_num; [apply (hdr_fin _ l1 L1)|apply (hdr_fin _ l2 L2)]. }
  { destruct (C 0 ltac:(lia)) as (r & R & RA). exists r. split; [exact R|]. rewrite (DT r R). unfold rows. intros Q. apply map_eq_nil in Q. assert (In 0 (zr (lnt r))) by (apply in_zr; lia). rewrite Q in H. destruct H. }
  exists x0, x1, y0, y1. split; [exact E|].
  assert (DS : forall r, (r < p)%nat -> map swap (dat r) = rows l2 l1 (goff r) (lnt r)) by (intros r R; rewrite (DT r R); unfold rows; rewrite map_map; reflexivity).
  split; [apply (extreme_of p goff lnt dat l1 l2 x0 L1 G C DT); exact X0|]. split; [apply (extreme_of p goff lnt dat l1 l2 x1 L1 G C DT); exact X1|].
  split; [apply (extreme_of p goff lnt (fun r => map swap (dat r)) l2 l1 y0 L2 G C DS); exact Y0|apply (extreme_of p goff lnt (fun r => map swap (dat r)) l2 l1 y1 L2 G C DS); exact Y1].
Qed.
Lemma twelve (p : nat) sizes : (0 < p)%nat -> (0 < nt)%Z -> exists es, mm_extremes maxSize sizes rd f p = Some es /\ length es = 12%nat /\
  forall k, 0 <= k < 12 -> is_extreme f ns nt (Z.even k) (extreme_field k) (nth (Z.to_nat k) (map snd es) 0).
Proof.
  intros P NP. destruct rb_facts as (_ & _ & N64 & _). unfold mm_extremes. set (pc := fun r => rw_piece nt (Z.of_nat p) (Z.of_nat r)).
  assert (PC : forall r, (r < p)%nat -> block_decomposition nt (Z.of_nat p) (Z.of_nat r) = Some (pc r) /\ 0 <= global_offset (pc r) /\ 0 <= local_size (pc r) /\ global_offset (pc r) + local_size (pc r) <= nt).
  { intros r R. destruct (rw_piece_eq nt (Z.of_nat p) (Z.of_nat r) N64 ltac:(lia)) as (d & D & E & Q). unfold pc. rewrite E. auto. }
  assert (CV : forall a, 0 <= a < nt -> exists r, (r < p)%nat /\ global_offset (pc r) <= a < global_offset (pc r) + local_size (pc r)).
  { intros a A. destruct (block_decomposition_shares nt (Z.of_nat p) N64 ltac:(lia)) as (_ & SH & _). destruct (SH a A) as (r0 & (R0 & q & EP & IP) & _). exists (Z.to_nat r0). split; [lia|].
    unfold pc. rewrite Z2Nat.id by lia. unfold rw_piece. rewrite EP. exact IP. }
  rewrite (omap_map _ (fun r => mkShare (global_offset (pc r)) (rows 73 77 (global_offset (pc r)) (local_size (pc r))) (rows 81 85 (global_offset (pc r)) (local_size (pc r))) (rows 181 185 (global_offset (pc r)) (local_size (pc r))))).
  2:{ intros r R. apply in_seq in R. destruct (PC r ltac:(lia)) as (D & _). apply share_rows; [lia|exact D]. }
  cbn [obind]. set (SH := map _ (seq 0 p)).
  assert (AT : forall r, (r < p)%nat -> nth r SH (mkShare 0 [] [] []) = mkShare (global_offset (pc r)) (rows 73 77 (global_offset (pc r)) (local_size (pc r))) (rows 81 85 (global_offset (pc r)) (local_size (pc r))) (rows 181 185 (global_offset (pc r)) (local_size (pc r)))).
  { intros r R. unfold SH. set (g := fun r : nat => mkShare _ _ _ _). rewrite (nth_indep _ _ (g 0%nat)) by (rewrite map_length, seq_length; exact R). rewrite map_nth, seq_nth by exact R. reflexivity. }
  set (goff := fun r => sh_off (nth r SH (mkShare 0 [] [] []))).
  assert (GO : forall r, (r < p)%nat -> goff r = global_offset (pc r)) by (intros r R; unfold goff; rewrite (AT r R); reflexivity).
  assert (G : forall r, (r < p)%nat -> 0 <= goff r /\ 0 <= local_size (pc r) /\ goff r + local_size (pc r) <= nt) by (intros r R; rewrite (GO r R); apply PC; exact R).
  assert (C : forall a, 0 <= a < nt -> exists r, (r < p)%nat /\ goff r <= a < goff r + local_size (pc r)) by (intros a A; destruct (CV a A) as (r & R & RA); exists r; rewrite (GO r R); auto).
  set (zz := (d_of_Z 0, d_of_Z 0)).
  destruct (four p goff (fun r => local_size (pc r)) (fun r => sh_src (nth r SH (mkShare 0 [] [] []))) zz 73 77 ltac:(lia) ltac:(lia) NP G C) as (a0 & a1 & a2 & a3 & EA & A0 & A1 & A2 & A3); [intros r R; rewrite (GO r R), (AT r R); reflexivity|].
  destruct (four p goff (fun r => local_size (pc r)) (fun r => sh_rcv (nth r SH (mkShare 0 [] [] []))) zz 81 85 ltac:(lia) ltac:(lia) NP G C) as (b0 & b1 & b2 & b3 & EB & B0 & B1 & B2 & B3); [intros r R; rewrite (GO r R), (AT r R); reflexivity|].
  destruct (four p goff (fun r => local_size (pc r)) (fun r => sh_cmp (nth r SH (mkShare 0 [] [] []))) zz 181 185 ltac:(lia) ltac:(lia) NP G C) as (c0 & c1 & c2 & c3 & EC & C0 & C1 & C2 & C3); [intros r R; rewrite (GO r R), (AT r R); reflexivity|].
  rewrite EA, EB, EC. eexists. split; [reflexivity|]. split; [reflexivity|]. intros k K.
  assert (CASE : k = 0 \/ k = 1 \/ k = 2 \/ k = 3 \/ k = 4 \/ k = 5 \/ k = 6 \/ k = 7 \/ k = 8 \/ k = 9 \/ k = 10 \/ k = 11) by lia. clear K.
  repeat (destruct CASE as [->|CASE]; [assumption|]). subst k. assumption.
Qed.

(** ---- reading the chosen traces ---- *)
Lemma read_chosen sz us : Forall (fun n => 0 <= n < nt) us ->
  exists t, readTraceNonContiguous maxSize sz rd us None (Some (newParam default_rule (Z.of_nat (length us)))) 0 f = Some (None, Some t) /\ wf_param t /\ p_rule t = default_rule /\ p_sz t = Z.of_nat (length us) /\
  forall j, 0 <= j < Z.of_nat (length us) -> holds t j (hdr (nth (Z.to_nat j) us 0)).
Proof.
  intros V. destruct rb_facts as (F & HT & N64 & N0). unfold readTraceNonContiguous. fold ns. destruct default_usable as (FR & FO).
  assert (RE : readTraceT maxSize sz (r_format rd) ns (Listed us) None (Some (newParam default_rule (Z.of_nat (length us)))) 0 f = readTraceT maxSize sz 5 ns (Listed us) None (Some (newParam default_rule (Z.of_nat (length us)))) 0 f).
  { unfold readTraceT. destruct (obj_io _ _ _ _ _ _ _); reflexivity || (cbn [obind option_map]; destruct (extractParam _ _ _ _ _ _) as [q|]; [cbn [obind]; destruct (set_labels _ _ _ q); reflexivity|reflexivity]). }
  rewrite RE. destruct (read_spec maxSize sz 5 ns nt (Listed us) None (Some (newParam default_rule (Z.of_nat (length us)))) 0 f (proj2 (ra_max _ _ _ _ RB)) F) as (trc' & prm' & E & A0 & _ & _ & B); try assumption.
  { intros; apply (ra_bytes _ _ _ _ RB). }
  { lia. }
  { right; discriminate. }
  { intros q Q. injection Q as <-. split; [apply newParam_wf; [apply default_good|lia]|]. split; [exact FR|]. split; [exact FO|]. split; [exact default_label|]. cbn. lia. }
  destruct (B _ eq_refl) as (p' & -> & B1 & B2 & B3 & B4 & _). cbn [p_rule p_sz newParam tcount tpos] in *. rewrite (A0 eq_refl) in E.
  exists p'. split; [exact E|]. split; [exact B1|]. split; [exact B2|]. split; [exact B3|]. intros j J m e v LK D. rewrite B2 in LK. pose proof (B4 j m e v ltac:(lia) LK D) as Q. rewrite Z.add_0_r in Q. exact Q.
Qed.
End Share.

(** ---- the rows written ---- *)
Lemma copy_default src dst j k : wf_param src -> wf_param dst -> p_rule src = default_rule -> p_rule dst = default_rule -> 0 <= j < p_sz src -> 0 <= k < p_sz dst ->
  exists dst', cpyPrm false j src k dst = Some dst' /\ wf_param dst' /\ p_rule dst' = default_rule /\ p_sz dst' = p_sz dst /\
  (forall m e, lookup m (translate default_rule) = Some e -> e_type e <> MCopy -> getPrm k m dst' = getPrm j m src) /\ (forall i m e, lookup m (translate default_rule) = Some e -> e_type e <> MCopy -> 0 <= i < p_sz dst -> i <> k -> getPrm i m dst' = getPrm i m dst).
Proof.
  intros Hs Hd Rs Rd Hj Hk. unfold cpyPrm. rewrite Rs. replace (counts default_rule MCopy =? 0) with true by (vm_compute; reflexivity). cbn [obind].
  pose proof Hd as (G & _). pose proof G as (ND & _).
  destruct (copy_entries src j k (translate default_rule) dst Hs Hd ltac:(rewrite Rs; apply incl_refl) ltac:(rewrite Rd in ND; exact ND) Hj Hk) as (d2 & F2 & R2 & S2 & L2 & A2 & U2).
  assert (W2 : wf_param d2) by (unfold wf_param; rewrite R2, S2, L2; exact Hd). exists d2. split; [exact F2|]. split; [exact W2|]. split; [congruence|]. split; [exact S2|]. rewrite Rd, Rs in *. split.
  - intros m e L T. rewrite (getPrm_at d2 k m e W2) by (rewrite ?R2, ?S2; assumption). rewrite (getPrm_at src j m e Hs) by (rewrite ?Rs; assumption). f_equal. rewrite R2, Rs. apply (A2 m e e); try assumption; [apply ReadProofs.lookup_in; exact L|reflexivity].
  - intros i m e L T I NE. rewrite (getPrm_at d2 i m e W2) by (rewrite ?R2, ?S2; assumption). rewrite (getPrm_at dst i m e Hd) by (rewrite ?Rd; assumption). f_equal. rewrite R2, Rd. apply U2.
    intros m0 es0 ed0 I0 L0 T0 C0 EQ. injection EQ as TT SS. destruct (slot_inj _ _ _ _ _ _ _ G L L0 TT SS) as (A & _). contradiction.
Qed.
Lemma place_spec n : forall us j0, In n us -> exists j, place n us j0 = Some j /\ j0 <= j < j0 + Z.of_nat (length us) /\ nth (Z.to_nat (j - j0)) us 0 = n.
Proof.
  induction us as [|u us IH]; intros j0 I; [destruct I|]. cbn [place length]. destruct (Z.eqb_spec n u) as [->|NE].
  - exists j0. split; [reflexivity|]. split; [lia|]. rewrite Z.sub_diag. reflexivity.
  - destruct I as [->|I]; [congruence|]. destruct (IH (j0 + 1) I) as (j & E & B & N). exists j. split; [exact E|]. split; [lia|]. replace (Z.to_nat (j - j0)) with (S (Z.to_nat (j - (j0 + 1)))) by lia. exact N.
Qed.
Lemma rows_written us t nums : wf_param t -> p_rule t = default_rule -> p_sz t = Z.of_nat (length us) -> (forall n, In n nums -> In n us) -> (forall n, In n nums -> 0 <= n < 2 ^ 63) ->
  exists o, mm_params us t nums = Some o /\ wf_param o /\ p_rule o = default_rule /\ p_sz o = Z.of_nat (length nums) /\
  forall i, 0 <= i < Z.of_nat (length nums) -> let n := nth (Z.to_nat i) nums 0 in exists j, 0 <= j < Z.of_nat (length us) /\ nth (Z.to_nat j) us 0 = n /\ getPrm i 5 o = Some (VI n) /\
    forall m e, lookup m (translate default_rule) = Some e -> e_type e <> MCopy -> m <> 5 -> getPrm i m o = getPrm j m t.
Proof.
  intros Wt Rt St IN RG. unfold mm_params. set (sz := Z.of_nat (length nums)).
  assert (L5 : lookup 5 (translate default_rule) = Some (mkEntry MLong 3 5 0)) by (vm_compute; reflexivity).
  assert (NI : forall i, 0 <= i < sz -> In (nth (Z.to_nat i) nums 0) nums) by (intros i I; apply nth_In; unfold sz in I; lia).
  assert (X : forall js o, wf_param o -> p_rule o = default_rule -> p_sz o = sz -> NoDup js -> (forall i, In i js -> 0 <= i < sz) ->
    exists o', fold_left (mm_row us t nums) js (Some o) = Some o' /\ wf_param o' /\ p_rule o' = default_rule /\ p_sz o' = sz /\
    (forall i, In i js -> let n := nth (Z.to_nat i) nums 0 in exists j, 0 <= j < Z.of_nat (length us) /\ nth (Z.to_nat j) us 0 = n /\ getPrm i 5 o' = Some (VI n) /\
       forall m e, lookup m (translate default_rule) = Some e -> e_type e <> MCopy -> m <> 5 -> getPrm i m o' = getPrm j m t) /\
    (forall i m e, lookup m (translate default_rule) = Some e -> e_type e <> MCopy -> 0 <= i < sz -> ~ In i js -> getPrm i m o' = getPrm i m o)).
  { induction js as [|i js IH]; intros o W R S ND B.
    - exists o. split; [reflexivity|]. split; [exact W|]. split; [exact R|]. split; [exact S|]. split; [intros i []|intros; reflexivity].
    - cbn [fold_left]. pose proof (B i (or_introl eq_refl)) as I. inversion ND as [|u uu N1 N2]. subst u uu. unfold mm_row at 2. cbn [obind]. set (n := nth (Z.to_nat i) nums 0) in *.
      destruct (place_spec n us 0 (IN n (NI i I))) as (j & -> & J & NJ). rewrite Z.sub_0_r in NJ. rewrite Z.add_0_l in J.
      destruct (copy_default t o j i Wt W Rt R ltac:(lia) ltac:(lia)) as (o1 & -> & W1 & R1 & S1 & G1 & U1). cbn [obind].
      pose proof (RG n (NI i I)) as RN.
      destruct (set_get o1 i 5 (VI n) _ W1 ltac:(rewrite R1; exact L5) ltac:(lia)) as (o2 & -> & R2 & W2 & S2 & G2 & U2); [unfold fits_type; cbn [e_type]; unfold in_s64; change (2 ^ 63) with 9223372036854775808 in RN; lia|].
      destruct (IH o2 W2 ltac:(congruence) ltac:(lia) N2 ltac:(intros; apply B; right; assumption)) as (o3 & E3 & W3 & R3 & S3 & G3 & U3).
      exists o3. split; [exact E3|]. split; [exact W3|]. split; [exact R3|]. split; [exact S3|]. split.
      + intros i' [<-|I'].
        * cbv zeta. fold n. exists j. split; [lia|]. split; [exact NJ|]. split; [rewrite (U3 i 5 _ L5 ltac:(discriminate) I N1); exact G2|].
          intros m e L T NE. rewrite (U3 i m e L T I N1). rewrite U2 by (lia || (intros Q; injection Q; lia)). apply (G1 m e L T).
        * apply G3. exact I'.
      + intros i' m e L T I' NI'. rewrite (U3 i' m e L T I' ltac:(intros Q; apply NI'; right; exact Q)). assert (D : i' <> i) by (intros ->; apply NI'; left; reflexivity).
        rewrite U2 by (lia || (intros Q; injection Q; intros; congruence)). apply (U1 i' m e L T); [lia|exact D]. }
  destruct (X (zr sz) (newParam default_rule sz)) as (o & E & W & R & S & G & _).
  { apply newParam_wf; [apply default_good|unfold sz; lia]. }
  { reflexivity. }
  { reflexivity. }
  { apply nodup_zrange. }
  { intros i I. apply in_zr in I. exact I. }
  exists o. split; [exact E|]. split; [exact W|]. split; [exact R|]. split; [exact S|]. intros i I. apply G, in_zr. exact I.
Qed.

(** ---- the file the rows come from ---- *)
Definition numbered (n : Z) (hd : mem) : mem := fun x => if (4 <=? x) && (x <? 8) then nth (Z.to_nat (x - 4)) [n / 16777216 mod 256; n / 65536 mod 256; n / 256 mod 256; n mod 256] 0 else hd x.
Lemma numbered_byte n hd : (forall x, is_byte (hd x)) -> forall x, is_byte (numbered n hd x).
Proof.
  intros H x. unfold numbered. destruct (Z.leb_spec 4 x); [|apply H]. destruct (Z.ltb_spec x 8); [|apply H]. cbn [andb]. assert (C : x = 4 \/ x = 5 \/ x = 6 \/ x = 7) by lia. unfold is_byte.
  destruct C as [->|[->|[->| ->]]]; match goal with |- context [nth ?k _ _] => let v := eval vm_compute in k in change k with v end; cbn [nth]; match goal with |- context [?a mod 256] => pose proof (Z.mod_pos_bound a 256 ltac:(lia)); lia end.
Qed.
Lemma numbered_int n hd : 0 <= n < 2147483648 -> int32_at (numbered n hd) 5 = n.
Proof.
  intros N. unfold int32_at. change (numbered n hd (5 - 1)) with (n / 16777216 mod 256). change (numbered n hd 5) with (n / 65536 mod 256). change (numbered n hd (5 + 1)) with (n / 256 mod 256). change (numbered n hd (5 + 2)) with (n mod 256).
  assert (E : 16777216 * (n / 16777216 mod 256) + 65536 * (n / 65536 mod 256) + 256 * (n / 256 mod 256) + n mod 256 = n).
  { replace (n / 16777216) with (n / 256 / 256 / 256) by (rewrite !Z.div_div by lia; reflexivity). replace (n / 65536) with (n / 256 / 256) by (rewrite !Z.div_div by lia; reflexivity).
    pose proof (Z.div_mod n 256 ltac:(lia)). pose proof (Z.div_mod (n / 256) 256 ltac:(lia)). pose proof (Z.div_mod (n / 256 / 256) 256 ltac:(lia)).
    assert (S : n / 256 / 256 / 256 mod 256 = n / 256 / 256 / 256) by (apply Z.mod_small; rewrite !Z.div_div by lia; split; [apply Z.div_pos; lia|apply Z.div_lt_upper_bound; lia]). lia. }
  cbv zeta. rewrite E. destruct (Z.ltb_spec n 2147483648); lia.
Qed.
Definition shown (g : Z -> mem) : file := mkFile 0 (fun q => let x := (q - 3600) mod 244 in if x <? 240 then g ((q - 3600) / 244) x else nth (Z.to_nat (x - 240)) [63; 128; 0; 0] 0).
Lemma shown_at g b x : 0 <= x < 244 -> fbyte (shown g) (3600 + b * 244 + x) = if x <? 240 then g b x else nth (Z.to_nat (x - 240)) [63; 128; 0; 0] 0.
Proof.
  intros X. unfold shown. cbn [fbyte]. replace (3600 + b * 244 + x - 3600) with (x + b * 244) by lia. rewrite Z.mod_add, Z.div_add, Z.mod_small, Z.div_small by lia. rewrite Z.add_0_l. reflexivity.
Qed.
Lemma shown_header g b x : 0 <= x < 240 -> disk_header (shown g) 1 b x = g b x.
Proof. intros X. unfold disk_header, trace_at. change (240 + 4 * 1) with 244. rewrite shown_at by lia. replace (x <? 240) with true by lia. reflexivity. Qed.
Lemma shown_sample g b : disk_sample (shown g) 1 b 0 = 1065353216.
Proof.
  unfold disk_sample, trace_at. change (240 + 4 * 1) with 244. replace (3600 + b * 244 + 240 + 4 * 0) with (3600 + b * 244 + 240) by lia. rewrite <- !Z.add_assoc. change (240 + 1) with 241. change (240 + 2) with 242. change (240 + 3) with 243.
  rewrite !Z.add_assoc, !shown_at by lia. reflexivity.
Qed.
Lemma shown_bytes g : (forall b x, is_byte (g b x)) -> file_bytes (shown g).
Proof.
  intros H q. unfold shown. cbn [fbyte]. cbv zeta. pose proof (Z.mod_pos_bound (q - 3600) 244 ltac:(lia)). destruct (Z.ltb_spec ((q - 3600) mod 244) 240) as [L|L]; [apply H|].
  set (x := (q - 3600) mod 244) in *. clearbody x. assert (C : x = 240 \/ x = 241 \/ x = 242 \/ x = 243) by lia. unfold is_byte. destruct C as [->|[->|[->| ->]]]; vm_compute; (split; [discriminate|reflexivity]).
Qed.
Lemma holds_ext p i hd hd' : p_rule p = default_rule -> (forall x, 0 <= x < 240 -> hd x = hd' x) -> holds p i hd -> holds p i hd'.
Proof.
  intros R X H m e v L D. apply (H m e v L). rewrite <- D. destruct default_usable as (_ & FO). rewrite R in L. apply (decode_ext default_rule _ _ 0 e m FO (ReadProofs.lookup_in _ _ _ L)). intros x B. apply X. lia.
Qed.
Lemma numbered_holds o t i j n hd : p_rule o = default_rule -> p_rule t = default_rule -> 0 <= n < 2147483648 -> (forall x, is_byte (hd x)) -> holds t j hd -> getPrm i 5 o = Some (VI n) ->
  (forall m e, lookup m (translate default_rule) = Some e -> e_type e <> MCopy -> m <> 5 -> getPrm i m o = getPrm j m t) -> holds o i (numbered n hd).
Proof.
  intros Ro Rt N HB H G5 GO m e v L D. rewrite Ro in L. pose proof L as L0. destruct (decode_copyfree _ _ _ _ _ D) as (NC & _). unfold holds in H. rewrite Rt in H.
  destruct (Z.eq_dec m 5) as [->|NE].
  - rewrite G5. rewrite <- D. assert (E5 : e = mkEntry MLong 3 5 0). { assert (L5 : lookup 5 (translate default_rule) = Some (mkEntry MLong 3 5 0)) by (vm_compute; reflexivity). congruence. } rewrite E5. unfold decode. cbn [e_type e_loc].
    change (0 + (5 - 0 - 1)) with (5 - 1). rewrite <- int32_rd by (intros k K; apply numbered_byte; exact HB). rewrite numbered_int by exact N. reflexivity.
  - rewrite (GO m e L NC NE). apply (H m e v L). rewrite <- D. apply default_entries in L. cbn [In] in L.
    repeat (destruct L as [L|L]; [pose proof (f_equal fst L) as M1; pose proof (f_equal snd L) as M2; cbn [fst snd] in M1, M2; clear L; rewrite <- M2; first [congruence|reflexivity]|]). destruct L.
Qed.
Lemma one_sample us nums i : In (nth (Z.to_nat i) nums 0) us -> 0 <= i -> sample (mm_trace us nums) i = 1065353216.
Proof.
  intros I P. unfold sample, le32, mm_trace. assert (LB : le_bytes (enc_f (f_of_Z 1)) = [0; 0; 128; 63]) by (vm_compute; reflexivity). rewrite !LB.
  assert (D : forall c, 0 <= c < 4 -> (4 * i + c) / 4 = i /\ (4 * i + c) mod 4 = c). { intros c C. rewrite (Z.mul_comm 4 i), Z.add_comm, Z.div_add, Z.mod_add by lia. rewrite Z.div_small, Z.mod_small by lia. lia. }
  assert (D0 : (4 * i) / 4 = i /\ (4 * i) mod 4 = 0) by (rewrite <- (Z.add_0_r (4 * i)); apply D; lia). destruct D0 as (-> & ->). destruct (D 1 ltac:(lia)) as (-> & ->). destruct (D 2 ltac:(lia)) as (-> & ->). destruct (D 3 ltac:(lia)) as (-> & ->).
  destruct (place_spec _ us 0 I) as (j & -> & _). reflexivity.
Qed.
Lemma trace_bytes us nums : mem_bytes (mm_trace us nums).
Proof.
  intros q. unfold mm_trace. destruct (place _ _ _); [|unfold is_byte; lia]. assert (LB : le_bytes (enc_f (f_of_Z 1)) = [0; 0; 128; 63]) by (vm_compute; reflexivity). rewrite LB.
  pose proof (Z.mod_pos_bound q 4 ltac:(lia)). set (x := q mod 4) in *. clearbody x. assert (C : x = 0 \/ x = 1 \/ x = 2 \/ x = 3) by lia. unfold is_byte. destruct C as [->|[->|[->| ->]]]; vm_compute; (split; [discriminate|reflexivity]).
Qed.
