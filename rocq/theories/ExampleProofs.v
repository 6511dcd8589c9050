(** Proofs about creadwrite. *)
From Coq Require Import Reals Lra.
From Flocq Require Import Core IEEE754.BinarySingleNaN.
From Verif Require Import Base DecompModel DecompSpec DecompProofs NumEncModel NumEncSpec NumEncProofs CharEncModel CharEncProofs LayoutModel LayoutProofs DataIOModel DataIOProofs
  RuleModel RuleProofs DoubleModel ParamModel ParamProofs HeaderProofs ScalarProofs FileSpec FileModel FileProofs WriteSpec WriteProofs ParamProperties ReadProofs OpenProofs FileProperties TraceProperties.
From Verif Require Import CopySpec CopyProofs ExampleModel.
Import ListNotations.
Open Scope Z_scope.

(** ---- normal numbers ---- *)
Lemma normal_big (x : D) : fin x -> (bpow radix2 (-1022) <= Rabs (val x))%R -> disnormal x = true.
Proof.
  intros F V. destruct x as [s|s| |s m e B]; try discriminate; unfold val in V; cbn [B2R] in V.
  - rewrite Rabs_R0 in V. pose proof (bpow_gt_0 radix2 (-1022)). lra.
  - cbn [disnormal]. apply Z.leb_le. apply Znot_gt_le. intros G. rewrite <- F2R_abs in V || idtac.
    assert (M : Z.pos m < 2 ^ 52) by (change (2 ^ 52) with (Z.shiftl 1 52); lia).
    pose proof B as B'. unfold SpecFloat.bounded in B'. apply andb_true_iff in B'. destruct B' as (C & _). unfold SpecFloat.canonical_mantissa in C. apply Zeq_bool_eq in C.
    unfold SpecFloat.fexp, SpecFloat.emin in C. rewrite Zpos_digits2_pos in C.
    assert (DG : Zdigits radix2 (Z.pos m) <= 52) by (apply Zdigits_le_Zpower; cbn [Z.abs]; exact M).
    assert (E : e = -1074) by (unfold prec64, emax64 in C; lia). subst e.
    assert (A : Rabs (F2R (Float radix2 (SpecFloat.cond_Zopp s (Z.pos m)) (-1074))) = F2R (Float radix2 (Z.pos m) (-1074))).
    { rewrite <- F2R_Zabs. destruct s; reflexivity. }
    rewrite A in V. unfold F2R in V. cbn [Fnum Fexp] in V. change (-1022) with (52 + -1074) in V. rewrite bpow_plus in V.
    apply Rmult_le_reg_r in V; [|apply bpow_gt_0]. rewrite <- (IZR_Zpower radix2 52) in V by lia. apply le_IZR in V. change (Zpower radix2 52) with (2 ^ 52) in V. lia.
Qed.
Lemma inc_normal k : 1 <= k <= 32767 -> disnormal (dmul incFactor (d_of_Z k)) = true.
Proof.
  intros K. destruct (inc_value k ltac:(lia)) as (F & B). apply normal_big; [exact F|].
  assert (K1 : (1 <= IZR k)%R) by (apply IZR_le; lia).
  assert (S : (bpow radix2 (-51) <= / 2)%R) by (change (/ 2)%R with (bpow radix2 (-1)); apply bpow_le; lia).
  assert (T : (bpow radix2 (-1022) <= bpow radix2 (-21))%R) by (apply bpow_le; lia).
  assert (U : (bpow radix2 (-21) = / 2097152)%R) by (cbn; lra).
  set (v := val _) in *. assert (Q : (0 < IZR k / 1000000)%R) by lra. pose proof (bpow_gt_0 radix2 (-51)).
  assert (Q2 : (IZR k / 1000000 * bpow radix2 (-51) <= IZR k / 1000000 * / 2)%R) by (apply Rmult_le_compat_l; lra).
  assert (V : (IZR k / 2000000 <= v)%R). { apply Rabs_le_inv in B. lra. }
  rewrite Rabs_pos_eq by lra. lra.
Qed.

(** ---- blocks ---- *)
Definition nblk (n t : Z) : Z := n / t + flag (0 <? n mod t).
Lemma nblk_step n t : 0 < t -> nblk n t = 1 + nblk (n - t) t.
Proof. intros T. unfold nblk. replace (n - t) with (n + (-1) * t) by lia. rewrite Z.div_add, Z.mod_add by lia. lia. Qed.
Lemma nblk_0 t : 0 < t -> nblk 0 t = 0.
Proof. intros T. unfold nblk. rewrite Z.div_0_l, Z.mod_0_l by lia. reflexivity. Qed.
Lemma nblk_1 n t : 0 < n <= t -> nblk n t = 1.
Proof.
  intros N. unfold nblk. destruct (Z.eq_dec n t) as [->|NE]; [rewrite Z.div_same, Z.mod_same by lia; reflexivity|].
  rewrite Z.div_small, Z.mod_small by lia. replace (0 <? n) with true by lia. reflexivity.
Qed.
Lemma nblk_mono n m t : 0 < t -> n <= m -> nblk n t <= nblk m t.
Proof.
  intros T L. unfold nblk, flag. pose proof (Z.div_mod n t ltac:(lia)) as E1. pose proof (Z.div_mod m t ltac:(lia)) as E2.
  pose proof (Z.mod_pos_bound n t T) as B1. pose proof (Z.mod_pos_bound m t T) as B2. set (q := n / t) in *. set (s := m / t) in *. set (a := n mod t) in *. set (b := m mod t) in *.
  destruct (Z.lt_trichotomy q s) as [Q|[Q|Q]].
  - destruct (0 <? a), (0 <? b); lia.
  - subst q. rewrite Q in *. destruct (Z.ltb_spec 0 a), (Z.ltb_spec 0 b); lia.
  - exfalso. assert (t * (s + 1) <= t * q) by (apply Z.mul_le_mono_nonneg_l; lia). lia.
Qed.
Lemma nblk_le n t : 0 < t -> 0 <= n -> 0 <= nblk n t <= n.
Proof.
  intros T N. split.
  - rewrite <- (nblk_0 t T). apply nblk_mono; lia.
  - unfold nblk, flag. pose proof (Z.div_mod n t ltac:(lia)) as E1. pose proof (Z.mod_pos_bound n t T) as B1. pose proof (Z.div_pos n t N T) as P. set (q := n / t) in *. set (a := n mod t) in *.
    assert (q <= t * q) by (apply Z.le_mul_diag_l in T || idtac; rewrite <- (Z.mul_1_l q) at 1; apply Z.mul_le_mono_nonneg_r; lia). destruct (Z.ltb_spec 0 a); lia.
Qed.
Section Loop.
Context (goff lnt tcnt : Z).
Context (G : 0 <= goff) (T : 0 < tcnt) (S1 : lnt + tcnt < two64) (S2 : goff + lnt < two64).
Lemma loop_range fuel : forall i b, 0 <= i -> In b (rw_loop fuel goff lnt tcnt i) -> goff <= fst b /\ 0 < snd b <= tcnt /\ fst b + snd b <= goff + lnt.
Proof.
  induction fuel as [|fuel IH]; intros i b I H; [destruct H|]. cbn [rw_loop] in H. destruct (Z.ltb_spec i lnt); [|destruct H].
  rewrite !u64_small in H by (unfold in_u64; lia). destruct H as [<-|H]; [|apply (IH (i + tcnt)); [lia|exact H]]. cbn [fst snd]. destruct (Z.ltb_spec (i + tcnt) lnt); lia.
Qed.
Lemma loop_cover fuel : forall i, 0 <= i -> lnt - i < Z.of_nat fuel -> forall x, i <= x < lnt ->
  exists b, In b (rw_loop fuel goff lnt tcnt i) /\ fst b <= goff + x < fst b + snd b.
Proof.
  induction fuel as [|fuel IH]; intros i I F x X; [lia|]. cbn [rw_loop]. destruct (Z.ltb_spec i lnt); [|lia]. rewrite !u64_small by (unfold in_u64; lia).
  destruct (Z_lt_dec x (i + tcnt)).
  - eexists. split; [left; reflexivity|]. cbn [fst snd]. destruct (Z.ltb_spec (i + tcnt) lnt); lia.
  - destruct (IH (i + tcnt) ltac:(lia) ltac:(lia) x ltac:(lia)) as (b & B & X'). exists b. split; [right; exact B|exact X'].
Qed.
Lemma loop_length fuel : forall i, 0 <= i <= lnt -> lnt - i < Z.of_nat fuel -> Z.of_nat (length (rw_loop fuel goff lnt tcnt i)) = nblk (lnt - i) tcnt.
Proof.
  induction fuel as [|fuel IH]; intros i I F; [lia|]. cbn [rw_loop]. destruct (Z.ltb_spec i lnt).
  - rewrite (u64_small (i + tcnt)) by (unfold in_u64; lia). cbn [length]. destruct (Z_le_dec (i + tcnt) lnt).
    + rewrite Nat2Z.inj_succ, IH by lia. rewrite (nblk_step (lnt - i)) by exact T. replace (lnt - i - tcnt) with (lnt - (i + tcnt)) by lia. lia.
    + rewrite nblk_1 by lia. destruct fuel as [|fuel]; cbn [rw_loop]; [reflexivity|]. replace (i + tcnt <? lnt) with false by lia. reflexivity.
  - replace (lnt - i) with 0 by lia. rewrite nblk_0 by exact T. reflexivity.
Qed.
End Loop.
Lemma calls_spec goff lnt biggest tcnt : 0 <= goff -> 0 <= lnt <= biggest -> 0 < tcnt -> biggest + tcnt < two64 -> goff + lnt < two64 ->
  exists cs, rw_calls goff lnt biggest tcnt = Some cs /\ Z.of_nat (length cs) = nblk biggest tcnt /\
  (forall b, In b cs -> goff <= fst b /\ 0 <= snd b <= tcnt /\ fst b + snd b <= goff + lnt) /\
  (forall x, 0 <= x < lnt -> exists b, In b cs /\ fst b <= goff + x < fst b + snd b).
Proof.
  intros G L T S1 S2. unfold rw_calls. replace (tcnt =? 0) with false by lia. eexists. split; [reflexivity|].
  pose proof (nblk_mono lnt biggest tcnt T ltac:(lia)) as MN. pose proof (nblk_le biggest tcnt T ltac:(lia)) as BL. pose proof (nblk_le lnt tcnt T ltac:(lia)) as LL.
  assert (EX : u64 (biggest / tcnt - lnt / tcnt + flag (0 <? biggest mod tcnt) - flag (0 <? lnt mod tcnt)) = nblk biggest tcnt - nblk lnt tcnt).
  { rewrite u64_small; unfold nblk in *; [lia|unfold in_u64; lia]. }
  split; [|split].
  - rewrite app_length, repeat_length, Nat2Z.inj_add, loop_length by lia. rewrite EX, Z2Nat.id by lia. replace (lnt - 0) with lnt by lia. lia.
  - intros b B. apply in_app_or in B. destruct B as [B|B].
    + apply loop_range in B; lia.
    + apply repeat_spec in B. subst b. cbn [fst snd]. lia.
  - intros x X. destruct (loop_cover goff lnt tcnt G T ltac:(lia) S2 (S (Z.to_nat lnt)) 0 ltac:(lia) ltac:(lia) x ltac:(lia)) as (b & B & R). exists b. split; [apply in_or_app; left; exact B|exact R].
Qed.

(** ---- opening ---- *)
Lemma open_inv maxSize sizes f rd : 3600 <= maxSize -> file_bytes f -> 3600 <= fsize f < two64 -> open_file maxSize sizes f = Some rd ->
  r_ns rd = u64 (int16_at (fbyte f) 3221) /\ r_inc rd = dmul incFactor (d_of_Z (int16_at (fbyte f) 3217)) /\ r_format rd = int16_at (fbyte f) 3225 /\
  r_text rd = read_text (map (fbyte f) (zr 3200)) /\ r_nt rd = (fsize f - 3600) / getDOSz (r_ns rd) /\ getDOSz (r_ns rd) <> 0.
Proof.
  intros M FB SZ H. unfold open_file in H. replace (3600 <=? fsize f) with true in H by lia. unfold objHO in H.
  destruct (contig_read_exact f maxSize sizes 0 getHOSz 0 (fun _ => 0) ltac:(lia) ltac:(unfold getHOSz; lia)) as (m & E & A). rewrite E in H. cbn [obind] in H.
  assert (B : forall q, 0 <= q < 3600 -> m q = fbyte f q). { intros q Q. rewrite A. unfold getHOSz. replace (_ && _) with true by lia. f_equal. lia. }
  rewrite !B in H by lia. unfold getNt in H. destruct (Z.eqb_spec (getDOSz (read_ns (fbyte f 3220) (fbyte f 3221))) 0) as [|NZ]; [discriminate|]. cbn [obind] in H.
  apply (f_equal (fun o => match o with Some x => x | None => rd end)) in H. cbv beta iota in H. rewrite <- H.
  cbn [r_ns r_inc r_format r_text r_nt]. rewrite !int16_rd by apply FB.
  split; [reflexivity|]. split; [reflexivity|]. split; [reflexivity|]. split; [|split; [|exact NZ]].
  - f_equal. apply map_ext_in. intros q Q. apply in_zr in Q. apply B. change getTextSz with 3200 in Q. lia.
  - rewrite u64_small by (unfold getHOSz, in_u64; lia). reflexivity.
Qed.
Lemma open_total maxSize sizes f : 3600 <= maxSize -> file_bytes f -> 3600 <= fsize f -> 0 <= int16_at (fbyte f) 3221 -> exists rd, open_file maxSize sizes f = Some rd.
Proof.
  intros M FB SZ NS. unfold open_file. replace (3600 <=? fsize f) with true by lia. unfold objHO.
  destruct (contig_read_exact f maxSize sizes 0 getHOSz 0 (fun _ => 0) ltac:(lia) ltac:(unfold getHOSz; lia)) as (m & -> & A). cbn [obind].
  assert (B : forall q, 0 <= q < 3600 -> m q = fbyte f q). { intros q Q. rewrite A. unfold getHOSz. replace (_ && _) with true by lia. f_equal. lia. }
  rewrite (B 3220), (B 3221) by lia. pose proof (rd16_range (fbyte f) 3220) as R. rewrite int16_rd in NS by apply FB. change (3221 - 1) with 3220 in NS. unfold in_s16 in R.
  assert (E : read_ns (fbyte f 3220) (fbyte f 3221) = rd16 (fbyte f) 3220).
  { unfold read_ns. change (s16 _) with (rd16 (fbyte f) 3220). apply u64_small. unfold in_u64, two64. lia. }
  rewrite E. unfold getNt. rewrite getDOSz_exact by (unfold two64; lia). replace (240 + 4 * rd16 (fbyte f) 3220 =? 0) with false by lia. cbn [obind]. eexists. reflexivity.
Qed.
Lemma open_fits maxSize sizes f rd : 3600 <= maxSize -> file_bytes f -> 3600 <= fsize f < two64 -> open_file maxSize sizes f = Some rd -> r_ns rd <= 32767 ->
  fits (r_nt rd) (r_ns rd) /\ has_traces f (r_nt rd) (r_ns rd).
Proof.
  intros M FB SZ H NS. destruct (open_inv _ _ _ _ M FB SZ H) as (A & _ & _ & _ & B & _).
  assert (N0 : 0 <= r_ns rd) by (rewrite A; unfold u64; apply Z.mod_pos_bound; reflexivity). rewrite getDOSz_exact in B by (unfold two64; lia). set (ns := r_ns rd) in *.
  assert (P : 0 < 240 + 4 * ns) by lia. pose proof (Z.mul_div_le (fsize f - 3600) (240 + 4 * ns) P) as L. rewrite <- B in L.
  assert (NT : 0 <= r_nt rd) by (rewrite B; apply Z.div_pos; lia). unfold fits, has_traces, trace_at. split; [|lia]. repeat split; try lia; unfold two64; lia.
Qed.

(** ---- the text ---- *)
Lemma c_string_plain a k : ~ In 0 a -> c_string (a ++ repeat 0 k) = a.
Proof.
  induction a as [|c a IH]; intros H; cbn [app c_string].
  - destruct k; reflexivity.
  - destruct (Z.eqb_spec c 0) as [->|]; [destruct H; left; reflexivity|]. rewrite IH; [reflexivity|]. intros I. apply H. right. exact I.
Qed.

(** ---- one block ---- *)
Lemma default_usable : usable default_rule.
Proof. apply predefined_usable. unfold default_rule. apply pre_new. Qed.
Lemma default_label : exists e, lookup 1 (translate default_rule) = Some e /\ e_type e = MIndex.
Proof. eexists. split; [vm_compute; reflexivity|reflexivity]. Qed.
Lemma default_good : good default_rule.
Proof. apply newRule_good. Qed.
Lemma block_spec maxSize sizes m0 rd f (b : Z * Z) :
  2 * (240 + 4 * r_ns rd) <= maxSize -> fits (r_nt rd) (r_ns rd) -> has_traces f (r_nt rd) (r_ns rd) -> file_bytes f -> r_format rd <> 1 ->
  (forall x y, mem_bytes (m0 x y)) -> 0 <= fst b -> 0 <= snd b -> fst b + snd b <= r_nt rd ->
  exists m prm, rw_block maxSize sizes m0 rd f None b = Some (WTrace (sizes (fst b) (snd b)) (Range (fst b) (snd b)) (Some m) (Some prm) 0) /\
  good_write (r_nt rd) (r_ns rd) (WTrace (sizes (fst b) (snd b)) (Range (fst b) (snd b)) (Some m) (Some prm) 0) /\
  call_copies (fun i => (f, i)) (r_ns rd) default_rule (WTrace (sizes (fst b) (snd b)) (Range (fst b) (snd b)) (Some m) (Some prm) 0).
Proof.
  destruct b as (off, n). cbn [fst snd]. intros M F HT FB FM MB O N L. set (ns := r_ns rd) in *. set (nt := r_nt rd) in *. pose proof F as (NS & NT & S64 & _).
  assert (NTS : nt < two64). { assert (nt * 240 <= nt * (240 + 4 * ns)) by (apply Z.mul_le_mono_nonneg_l; lia). lia. }
  cbn [rw_block]. unfold readTrace. fold nt ns.
  assert (CL : clamp nt off n = n). { unfold clamp. destruct (Z.eqb_spec n 0); [reflexivity|]. rewrite u64_small by (unfold in_u64; lia). replace (nt <? off + n) with false by lia. reflexivity. }
  rewrite CL. destruct default_usable as (FR & FO).
  destruct (read_spec maxSize (sizes off n) (r_format rd) ns nt (Range off n) (Some (m0 off n)) (Some (newParam default_rule n)) 0 f M F) as (trc' & prm' & E & _ & A & _ & B); try assumption.
  { unfold tvalid. cbn. lia. }
  { intros; apply FB. }
  { left; discriminate. }
  { intros q Q. injection Q as <-. split; [apply newParam_wf; [apply default_good|exact N]|]. split; [exact FR|]. split; [exact FO|]. split; [exact default_label|]. cbn. lia. }
  destruct (A _ eq_refl) as (m' & -> & A1 & A2). destruct (B _ eq_refl) as (p' & -> & B1 & B2 & B3 & B4 & _).
  rewrite E. cbn [obind mod_params]. exists m', p'. split; [reflexivity|].
  cbn [p_rule p_sz newParam tcount tpos] in *.
  assert (HD : forall j, 0 <= j < n -> holds p' (j + 0) (disk_header f ns (off + j))).
  { intros j J m e v LK D. rewrite B2 in LK. apply (B4 j m e v J LK D). }
  assert (MB' : mem_bytes m').
  { intros a. destruct (read_converted _ _ _ _ _ _ _ _ _ _ _ E FM) as (tb & TB). cbn [tcount] in TB.
    assert (NN : 0 <= ns * n) by (apply Z.mul_nonneg_nonneg; lia).
    destruct (Z_lt_dec a 0); [rewrite A2 by lia; apply MB|]. destruct (Z_lt_dec a (4 * (ns * n))); [|rewrite A2 by lia; apply MB]. rewrite TB. apply from_disk_bytes; lia. }
  split.
  - cbn [good_write in_file write_fine tcount]. split; [lia|]. split; [lia|]. split; [intros q Q; injection Q as <-; exact MB'|]. split; [left; discriminate|].
    intros q Q. injection Q as <-. apply holds_insert; [exact B1|lia|lia|]. intros i I. exists (disk_header f ns (off + i)). apply HD. exact I.
  - cbn [call_copies tcount tpos]. split; [exact B1|]. split; [exact B2|]. split; [lia|]. split; [lia|]. intros j J. split; [|apply HD; exact J].
    intros k K. apply A1; assumption.
Qed.
Lemma omap_blocks {A B} (g : A -> option B) (P : A -> B -> Prop) : forall l, (forall x, In x l -> exists y, g x = Some y /\ P x y) ->
  exists ys, omap g l = Some ys /\ length ys = length l /\ (forall y, In y ys -> exists x, In x l /\ P x y) /\ (forall x, In x l -> exists y, In y ys /\ P x y).
Proof.
  induction l as [|x l IH]; intros H.
  - exists []. split; [reflexivity|]. split; [reflexivity|]. split; intros z [].
  - destruct (H x (or_introl eq_refl)) as (y & E & Y). destruct IH as (ys & E' & LN & IA & IB); [intros; apply H; right; assumption|]. exists (y :: ys). cbn [omap]. rewrite E, E'. cbn [obind].
    split; [reflexivity|]. split; [cbn [length]; lia|]. split.
    + intros z [<-|Z]; [exists x; split; [left; reflexivity|exact Y]|]. destruct (IA z Z) as (w & W & Q). exists w. split; [right; exact W|exact Q].
    + intros z [<-|Z]; [exists y; split; [left; reflexivity|exact Y]|]. destruct (IB z Z) as (w & W & Q). exists w. split; [right; exact W|exact Q].
Qed.
Lemma rw_piece_eq nt p r : in_u64 nt -> 0 <= r < p -> exists d, block_decomposition nt p r = Some d /\ rw_piece nt p r = d /\ 0 <= global_offset d /\ 0 <= local_size d /\ global_offset d + local_size d <= nt.
Proof.
  intros N R. destruct (piece_bounds nt p r N ltac:(lia) R) as (d & E & A). exists d. unfold rw_piece. rewrite E. tauto.
Qed.
Lemma biggest_spec nt p : in_u64 nt -> 0 < p -> (forall r, 0 <= r < p -> local_size (rw_piece nt p r) <= rw_biggest nt p) /\ rw_biggest nt p <= nt.
Proof.
  intros N P. split.
  - intros r R. unfold rw_biggest. apply zmax_in, in_map_iff. exists r. split; [reflexivity|apply in_zr; exact R].
  - unfold rw_biggest. destruct (zmax_witness (map (fun r => local_size (rw_piece nt p r)) (zr p))) as [->|I]; [unfold in_u64 in N; lia|].
    apply in_map_iff in I. destruct I as (r & <- & R). apply in_zr in R. destruct (rw_piece_eq nt p r N R) as (d & _ & -> & B1 & B2 & B3). lia.
Qed.

(** ---- a rank ---- *)
Definition announcements (rd : reader) : list wop := [WText (c_string (r_text rd)); WNs (r_ns rd); WNt (r_nt rd); WInc (r_inc rd)].
Definition block_of (sizes : Z -> Z -> list Z) (nt ns : Z) (f : file) (b : Z * Z) (o : wop) : Prop :=
  (exists m prm, o = WTrace (sizes (fst b) (snd b)) (Range (fst b) (snd b)) (Some m) (Some prm) 0) /\ good_write nt ns o /\ call_copies (fun i => (f, i)) ns default_rule o.
Lemma rank_calls maxSize sizes m0 rd f memmax p r :
  2 * (240 + 4 * r_ns rd) <= maxSize -> fits (r_nt rd) (r_ns rd) -> has_traces f (r_nt rd) (r_ns rd) -> file_bytes f -> r_format rd <> 1 ->
  (forall x y, mem_bytes (m0 x y)) -> 0 <= r < p -> Z.max 240 (4 * r_ns rd) <= memmax < two64 -> 
  exists ws, creadwrite maxSize sizes m0 rd f memmax None p r = Some (announcements rd ++ ws) /\
  Z.of_nat (length ws) = nblk (rw_biggest (r_nt rd) p) (rw_tcnt memmax (r_ns rd)) /\
  (forall o, In o ws -> exists b, block_of sizes (r_nt rd) (r_ns rd) f b o) /\
  (forall x, 0 <= x < local_size (rw_piece (r_nt rd) p r) -> exists b o, In o ws /\ block_of sizes (r_nt rd) (r_ns rd) f b o /\ fst b <= global_offset (rw_piece (r_nt rd) p r) + x < fst b + snd b) /\
  0 < rw_tcnt memmax (r_ns rd).
Proof.
  intros M F HT FB FM MB R MM. set (ns := r_ns rd) in *. set (nt := r_nt rd) in *. pose proof F as (NS & NT & S64 & W).
  assert (NTS : nt * 240 < two64). { assert (nt * 240 <= nt * (240 + 4 * ns)) by (apply Z.mul_le_mono_nonneg_l; lia). lia. }
  assert (N64 : in_u64 nt) by (unfold in_u64; lia).
  assert (TC : rw_tcnt memmax ns = memmax / Z.max 240 (4 * ns)).
  { unfold rw_tcnt. rewrite getDFSz_exact by lia. change getMDSz with 240. destruct (Z.ltb_spec 240 (4 * ns)); f_equal; lia. }
  assert (T0 : 0 < rw_tcnt memmax ns). { rewrite TC. apply Z.div_str_pos. lia. }
  assert (T1 : rw_tcnt memmax ns * 240 <= memmax).
  { rewrite TC. etransitivity; [|apply (Z.mul_div_le memmax (Z.max 240 (4 * ns))); lia]. rewrite Z.mul_comm. apply Z.mul_le_mono_nonneg_r; [apply Z.div_pos; lia|lia]. }
  destruct (rw_piece_eq nt p r N64 R) as (d & E & EP & B1 & B2 & B3). destruct (biggest_spec nt p N64 ltac:(lia)) as (BG & BN). specialize (BG r R). rewrite EP in *.
  unfold creadwrite. fold nt ns. rewrite E. cbn [obind].
  destruct (calls_spec (global_offset d) (local_size d) (rw_biggest nt p) (rw_tcnt memmax ns)) as (cs & EC & LC & CR & CC); try lia.
  rewrite EC. cbn [obind].
  destruct (omap_blocks (rw_block maxSize sizes m0 rd f None) (block_of sizes nt ns f) cs) as (ws & EW & LW & WA & WB).
  { intros b B. apply CR in B. destruct (block_spec maxSize sizes m0 rd f b M F HT FB FM MB ltac:(lia) ltac:(lia) ltac:(lia)) as (m & prm & Q & GW & CP). eexists. split; [exact Q|]. split; [eauto|]. split; assumption. }
  rewrite EW. cbn [obind]. exists ws. split; [reflexivity|]. split; [lia|]. split; [intros o I; destruct (WA o I) as (b & _ & Q); eauto|]. split; [|exact T0].
  intros x X. destruct (CC x X) as (b & B & BX). destruct (WB b B) as (o & O & Q). exists b, o. auto.
Qed.
