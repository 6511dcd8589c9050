(** Lemmas about the program that verifies an order. *)
From Coq Require Import Reals Lra Permutation Sorted.
From Flocq Require Import Core IEEE754.BinarySingleNaN.
From Verif Require Import Base DecompModel DecompSpec DecompProofs NumEncModel NumEncSpec NumEncProofs CharEncModel CharEncProofs LayoutModel LayoutProofs DataIOModel DataIOProofs
  RuleModel RuleProofs DoubleModel ParamModel ParamProofs HeaderProofs ScalarProofs FileSpec FileModel FileProofs WriteSpec WriteProofs RuleProperties ParamProperties ReadProofs OpenProofs FileProperties TraceProperties.
From Verif Require Import SortSpec SortModel SortProofs CompProofs SortProperties FlowModel FlowProofs FlowProperties CopySpec CopyProofs CopyProperties ExampleModel ExampleProofs SetFileModel SetFileSpec SetFileProofs SetOutProofs SetSortModel SetSortSpec SetSortProofs VerifyModel.
Import ListNotations.
Open Scope Z_scope.

(** ---- the check ---- *)
Lemma check_nth {A} (comp : A -> A -> bool) d : forall l, checkOrder comp l = true <-> (forall i, (S i < length l)%nat -> comp (nth i l d) (nth (S i) l d) = true).
Proof.
  induction l as [|a l IH]; [split; [cbn [length]; intros _ i I; lia|reflexivity]|]. destruct l as [|b l]; [split; [cbn [length]; intros _ i I; lia|reflexivity]|].
  change (checkOrder comp (a :: b :: l)) with (if comp a b then checkOrder comp (b :: l) else false). split.
  - destruct (comp a b) eqn:E; [|discriminate]. intros H i I. destruct i as [|i]; [exact E|]. apply (proj1 IH H i). cbn [length] in *. lia.
  - intros H. pose proof (H 0%nat ltac:(cbn [length]; lia)) as H0. cbn [nth] in H0. rewrite H0. apply IH. intros i I. apply (H (S i)). cbn [length] in *. lia.
Qed.
Lemma check_zr {A} (comp : A -> A -> bool) (g : Z -> A) n : 0 <= n -> checkOrder comp (map g (zr n)) = true <-> (forall j, 0 <= j -> j + 1 < n -> comp (g j) (g (j + 1)) = true).
Proof.
  intros N. rewrite (check_nth comp (g 0)). assert (L : length (map g (zr n)) = Z.to_nat n) by (rewrite map_length; unfold zr, zrange; rewrite map_length; apply seq_length).
  assert (E : forall i, (i < Z.to_nat n)%nat -> nth i (map g (zr n)) (g 0) = g (Z.of_nat i)).
  { intros i I. unfold zr. rewrite <- (Nat2Z.id i) at 1. apply nth_map_zrange. lia. }
  rewrite L. split; intros H.
  - intros j J J2. specialize (H (Z.to_nat j) ltac:(lia)). rewrite !E in H by lia. rewrite Nat2Z.inj_succ, Z2Nat.id in H by lia. exact H.
  - intros i I. rewrite !E by lia. rewrite Nat2Z.inj_succ. apply H; lia.
Qed.

(** ---- what a rank reads ---- *)
Lemma default_float m l : In (m, l) [(20, 73); (21, 77); (22, 81); (23, 85)] -> exists e, lookup m (translate default_rule) = Some e /\ e_type e = MFloat /\ e_loc e = l /\ e_scal e = 71.
Proof. intros [E|[E|[E|[E|[]]]]]; injection E as <- <-; (eexists; split; [vm_compute; reflexivity|repeat split; reflexivity]). Qed.
Lemma default_long m l : In (m, l) [(26, 189); (27, 193); (14, 37)] -> exists e, lookup m (translate default_rule) = Some e /\ e_type e = MLong /\ e_loc e = l.
Proof. intros [E|[E|[E|[]]]]; injection E as <- <-; (eexists; split; [vm_compute; reflexivity|split; reflexivity]). Qed.

(** A file that can be read. *)
Record readable (maxSize : Z) (rd : reader) (f : file) : Prop := mkReadable {
  rb_limit : 2 * (240 + 4 * r_ns rd) <= maxSize;
  rb_fits : fits (r_nt rd) (r_ns rd);
  rb_traces : has_traces f (r_nt rd) (r_ns rd);
  rb_format : r_format rd <> 1;
  rb_header : forall a x, 0 <= a < r_nt rd -> 0 <= x < 240 -> is_byte (disk_header f (r_ns rd) a x);
  rb_samples : forall a x, 0 <= a < r_nt rd -> 0 <= x < 4 * r_ns rd -> is_byte (fbyte f (trace_at (r_ns rd) a + 240 + x)) }.
Definition trace_geo (rd : reader) (f : file) (a : Z) : geo := header_geo (disk_header f (r_ns rd) a) a.

Lemma rows_read maxSize rd f (RB : readable maxSize rd f) sizes off n : 0 <= off -> 0 <= n -> off + n <= r_nt rd ->
  exists p', readTrace maxSize sizes rd off n None (Some (newParam default_rule n)) 0 f = Some (None, Some p') /\
  omap (geo_at p') (zr n) = Some (map (fun j => trace_geo rd f (off + j)) (zr n)).
Proof.
  destruct RB as [M F HT FM HB SB]. intros O N L. unfold trace_geo. set (ns := r_ns rd) in *. set (nt := r_nt rd) in *. pose proof F as (NS & NT & S64 & _).
  assert (NTS : nt < two64). { assert (nt * 240 <= nt * (240 + 4 * ns)) by (apply Z.mul_le_mono_nonneg_l; lia). lia. }
  unfold readTrace. fold nt ns.
  assert (CL : clamp nt off n = n). { unfold clamp. destruct (Z.eqb_spec n 0); [reflexivity|]. rewrite u64_small by (unfold in_u64; lia). replace (nt <? off + n) with false by lia. reflexivity. }
  rewrite CL. destruct default_usable as (FR & FO).
  destruct (read_spec maxSize sizes (r_format rd) ns nt (Range off n) None (Some (newParam default_rule n)) 0 f M F) as (trc' & prm' & E & A & _ & _ & B); try assumption.
  { unfold tvalid. cbn. lia. }
  { cbn [tcount tpos]. intros i j I J. apply SB; [lia|exact J]. }
  { right; discriminate. }
  { intros q Q. injection Q as <-. split; [apply newParam_wf; [apply default_good|exact N]|]. split; [exact FR|]. split; [exact FO|]. split; [exact default_label|]. cbn. lia. }
  destruct (B _ eq_refl) as (p' & -> & B1 & B2 & B3 & B4 & B5 & _). rewrite (A eq_refl) in E. cbn [tcount tpos p_rule newParam] in *.
  exists p'. split; [exact E|]. clear E.
  assert (RI : forall j m l, 0 <= j < n -> In (m, l) [(26, 189); (27, 193); (14, 37)] -> getPrm j m p' = Some (VI (int32_at (disk_header f ns (off + j)) l))).
  { intros j m l J I. destruct (default_long m l I) as (e & LK & T & EL). pose proof (B4 j m e (VI (int32_at (disk_header f ns (off + j)) l)) J LK) as H. rewrite Z.add_0_r in H. apply H.
    unfold decode. rewrite T, EL. rewrite !Z.add_0_l, !Z.sub_0_r. rewrite int32_rd; [reflexivity|]. intros k K. apply HB; [lia|]. destruct I as [I|[I|[I|[]]]]; injection I as <- <-; lia. }
  assert (RF : forall j m l, 0 <= j < n -> In (m, l) [(20, 73); (21, 77); (22, 81); (23, 85)] -> getPrm j m p' = Some (VF (read_coordinate (disk_header f ns (off + j)) l))).
  { intros j m l J I. destruct (default_float m l I) as (e & LK & T & EL & ES). pose proof (B4 j m e (VF (read_coordinate (disk_header f ns (off + j)) l)) J LK) as H. rewrite Z.add_0_r in H. apply H.
    unfold decode. rewrite T, EL, ES. rewrite !Z.add_0_l, !Z.sub_0_r. unfold read_coordinate. rewrite int16_rd by (apply HB; lia). rewrite int32_rd; [reflexivity|]. intros k K. apply HB; [lia|].
    destruct I as [I|[I|[I|[I|[]]]]]; injection I as <- <-; lia. }
  assert (RL : forall j, 0 <= j < n -> getPrm j 1 p' = Some (VI (off + j))) by (intros j J; rewrite <- (Z.add_0_r j) at 1; apply B5; exact J).
  assert (RG : forall j, 0 <= j < n -> geo_at p' j = Some (header_geo (disk_header f ns (off + j)) (off + j))).
  { intros j J. unfold geo_at.
    rewrite (RF j 20 73 J) by (cbn; tauto). cbn [obind asD]. rewrite (RF j 21 77 J) by (cbn; tauto). cbn [obind asD]. rewrite (RF j 22 81 J) by (cbn; tauto). cbn [obind asD]. rewrite (RF j 23 85 J) by (cbn; tauto). cbn [obind asD].
    rewrite (RI j 26 189 J) by (cbn; tauto). cbn [obind asZ]. rewrite (RI j 27 193 J) by (cbn; tauto). cbn [obind asZ]. rewrite (RI j 14 37 J) by (cbn; tauto). cbn [obind asU]. rewrite (RL j J). cbn [obind asZ].
    assert (S32 : forall l, 1 <= l <= 237 -> s64 (int32_at (disk_header f ns (off + j)) l) = int32_at (disk_header f ns (off + j)) l).
    { intros l LL. rewrite int32_rd by (intros k K; apply HB; lia). pose proof (rd32_range (disk_header f ns (off + j)) (l - 1)) as Q. apply s64_id. unfold in_s32 in Q. unfold in_s64. lia. }
    rewrite !S32 by lia. assert (NT63 : nt < 2 ^ 63).
    { assert (240 * nt <= nt * (240 + 4 * ns)). { rewrite (Z.mul_comm 240). apply Z.mul_le_mono_nonneg_l; lia. } unfold two64 in *. lia. }
    rewrite (s64_id (off + j)) by (unfold in_s64; lia). reflexivity. }
  clear - RG N. assert (Q : forall l, (forall j, In j l -> 0 <= j < n) -> omap (geo_at p') l = Some (map (fun j => header_geo (disk_header f ns (off + j)) (off + j)) l)).
  { induction l as [|j l IH]; intros H; [reflexivity|]. cbn [omap map]. rewrite (RG j) by (apply H; left; reflexivity). cbn [obind]. rewrite IH by (intros; apply H; right; assumption). reflexivity. }
  apply Q. intros j J. apply in_zr. exact J.
Qed.

(** The answer of a rank is about its own traces. *)
Lemma verify_rows maxSize rd f (RB : readable maxSize rd f) sizes type q r d : 0 < q -> 0 <= r < q -> block_decomposition (r_nt rd) q r = Some d ->
  exists ans, verify_rank maxSize sizes type rd f q r = Some ans /\
  (ans = true <-> forall a, global_offset d <= a -> a + 1 < global_offset d + local_size d -> getComp type (trace_geo rd f a) (trace_geo rd f (a + 1)) = true).
Proof.
  intros Q R D. unfold verify_rank. rewrite D. cbn [obind]. pose proof (rb_fits _ _ _ RB) as (NS & NT & S64 & _).
  assert (NTS : in_u64 (r_nt rd)). { unfold in_u64. assert (r_nt rd * 240 <= r_nt rd * (240 + 4 * r_ns rd)) by (apply Z.mul_le_mono_nonneg_l; lia). lia. }
  destruct (rw_piece_eq (r_nt rd) q r NTS ltac:(lia)) as (d' & D' & _ & O & L & B). rewrite D in D'. injection D' as <-.
  destruct (rows_read maxSize rd f RB sizes (global_offset d) (local_size d) O L B) as (p' & -> & E). cbn [obind]. rewrite E. cbn [obind]. eexists. split; [reflexivity|].
  rewrite (check_zr _ (fun j => trace_geo rd f (global_offset d + j)) _ L). split; intros H.
  - intros a A1 A2. specialize (H (a - global_offset d) ltac:(lia) ltac:(lia)). replace (global_offset d + (a - global_offset d + 1)) with (a + 1) in H by lia. replace (global_offset d + (a - global_offset d)) with a in H by lia. exact H.
  - intros j J1 J2. replace (global_offset d + (j + 1)) with (global_offset d + j + 1) by lia. apply H; lia.
Qed.

(** ---- whole numbers are read exactly ---- *)
Lemma coordinate_rn h l : in_s16 (int16_at h 71) -> in_s32 (int32_at h l) ->
  fin (read_coordinate h l) /\ val (read_coordinate h l) = rn (val (parse_scalar (int16_at h 71)) * IZR (int32_at h l)).
Proof.
  intros S I. unfold read_coordinate.
  destruct (parse_value _ S) as (F1 & _ & B1). destruct (d_of_Z_exact (int32_at h l)) as (V2 & F2); [unfold in_s32 in I; change (2 ^ 53) with 9007199254740992; lia|].
  assert (IB : (IZR (-2147483648) <= IZR (int32_at h l) <= 2147483647)%R) by (unfold in_s32 in I; split; apply IZR_le; lia).
  destruct (dmul_spec (parse_scalar (int16_at h 71)) (d_of_Z (int32_at h l))) as (DV & DF).
  - rewrite V2. set (c := val (parse_scalar (int16_at h 71))) in *. set (i := IZR (int32_at h l)) in *.
    assert (AB : (Rabs (c * i) <= bpow radix2 50)%R).
    { rewrite Rabs_mult, (Rabs_pos_eq c) by lra. apply Rle_trans with (40000 * 2147483648)%R; [apply Rmult_le_compat; [lra|apply Rabs_pos|lra|apply Rabs_le; lra]|]. cbn. lra. }
    apply Rle_lt_trans with (bpow radix2 50); [|apply bpow_lt; lia]. apply abs_round_le_generic; [typeclasses eauto|typeclasses eauto| |exact AB].
    apply generic_format_bpow. unfold fx. cbn. lia.
  - rewrite V2 in DV. split; [unfold fin in *; rewrite DF; first [assumption|split; assumption|rewrite F1, F2; reflexivity]|exact DV].
Qed.
Lemma whole_format n : Z.abs n < 2 ^ 53 -> generic_format radix2 fx (IZR n).
Proof.
  intros H. replace (IZR n) with (F2R (Float radix2 n 0)) by (unfold F2R; cbn; ring). apply generic_format_FLT. exists (Float radix2 n 0); [reflexivity|exact H|cbn; lia].
Qed.
Lemma rn_near_pos n x : 0 <= n < 2 ^ 53 -> (IZR n <= x <= IZR n * (1 + bpow radix2 (-54)))%R -> rn x = IZR n.
Proof.
  intros N X. assert (G : generic_format radix2 fx (IZR n)) by (apply whole_format; lia). assert (N0 : (0 <= IZR n)%R) by (apply IZR_le; lia).
  destruct (Req_dec (IZR n) 0) as [Z|NZ].
  { rewrite Z in *. assert (x = 0%R) as -> by lra. unfold rn. apply round_0. typeclasses eauto. }
  apply Rle_antisym.
  - apply round_N_le_midp; [typeclasses eauto|exact G|]. rewrite succ_eq_pos by exact N0. assert (P53 : Prec_gt_0 53) by reflexivity. pose proof (ulp_FLT_gt radix2 (-1074) 53 (IZR n)) as U. rewrite Rabs_pos_eq in U by exact N0. fold fx in U.
    change (- (53)) with (-53) in U. assert (B : (bpow radix2 (-53) = 2 * bpow radix2 (-54))%R) by (change (-53) with (-54 + 1); rewrite bpow_plus_1; reflexivity). rewrite B in U. lra.
  - rewrite <- (round_generic radix2 fx ZnearestE _ G). apply round_le; [typeclasses eauto|typeclasses eauto|lra].
Qed.
Lemma rn_near n x c : Z.abs n < 2 ^ 53 -> (1 <= c <= 1 + bpow radix2 (-54))%R -> x = (c * IZR n)%R -> rn x = IZR n.
Proof.
  intros N C ->. destruct (Z_le_gt_dec 0 n) as [P|P].
  - apply rn_near_pos; [lia|]. assert (0 <= IZR n)%R by (apply IZR_le; lia). split; [|rewrite (Rmult_comm c)]; [rewrite <- (Rmult_1_l (IZR n)) at 1; apply Rmult_le_compat_r; lra|apply Rmult_le_compat_l; lra].
  - replace (c * IZR n)%R with (- (c * IZR (- n)))%R by (rewrite opp_IZR; ring). unfold rn. rewrite round_NE_opp. fold (rn (c * IZR (- n))). rewrite (rn_near_pos (- n)).
    + rewrite opp_IZR. ring.
    + lia.
    + assert (0 <= IZR (- n))%R by (apply IZR_le; lia). split; [|rewrite (Rmult_comm c)]; [rewrite <- (Rmult_1_l (IZR (- n))) at 1; apply Rmult_le_compat_r; lra|apply Rmult_le_compat_l; lra].
Qed.
Lemma scale_near s : In s [-10; -100; -1000; -10000] -> (1 <= val (parse_scalar s) * IZR (- s) <= 1 + bpow radix2 (-54))%R.
Proof.
  assert (B54 : (bpow radix2 (-54) = / 18014398509481984)%R) by (cbn; lra). rewrite B54. unfold val.
  intros [<-|[<-|[<-|[<-|[]]]]]; rewrite <- SF2R_B2SF.
  - replace (B2SF (parse_scalar (-10))) with (SpecFloat.S754_finite false 7205759403792794 (-56)) by (vm_compute; reflexivity). cbn [SF2R cond_Zopp]. unfold F2R. cbn [Fnum Fexp Z.opp].
    assert (E : (bpow radix2 (-56) = / 72057594037927936)%R) by (cbn; lra). rewrite E. lra.
  - replace (B2SF (parse_scalar (-100))) with (SpecFloat.S754_finite false 5764607523034235 (-59)) by (vm_compute; reflexivity). cbn [SF2R cond_Zopp]. unfold F2R. cbn [Fnum Fexp Z.opp].
    assert (E : (bpow radix2 (-59) = / 576460752303423488)%R) by (cbn; lra). rewrite E. lra.
  - replace (B2SF (parse_scalar (-1000))) with (SpecFloat.S754_finite false 4611686018427388 (-62)) by (vm_compute; reflexivity). cbn [SF2R cond_Zopp]. unfold F2R. cbn [Fnum Fexp Z.opp].
    assert (E : (bpow radix2 (-62) = / 4611686018427387904)%R) by (cbn; lra). rewrite E. lra.
  - replace (B2SF (parse_scalar (-10000))) with (SpecFloat.S754_finite false 7378697629483821 (-66)) by (vm_compute; reflexivity). cbn [SF2R cond_Zopp]. unfold F2R. cbn [Fnum Fexp Z.opp].
    assert (E : (bpow radix2 (-66) = / 73786976294838206464)%R) by (cbn; lra). rewrite E. lra.
Qed.
Lemma whole_read h l n : plain_scale (int16_at h 71) -> in_s32 (int32_at h l) -> coordinate h l 71 = IZR n -> val (read_coordinate h l) = IZR n.
Proof.
  intros PS I C. unfold coordinate in C. set (s := int16_at h 71) in *. set (i := int32_at h l) in *.
  assert (S16 : in_s16 s) by (unfold in_s16; destruct PS as [E|[E|[E|[E|[E|[E|[]]]]]]]; rewrite <- E; lia).
  destruct (coordinate_rn h l S16 I) as (_ & ->). fold s i. unfold in_s32 in I.
  assert (CASE : s = 0 \/ s = 1 \/ In s [-10; -100; -1000; -10000]) by (destruct PS as [E|[E|PS]]; [left; congruence|right; left; congruence|right; right; exact PS]).
  destruct CASE as [S|[S|S]].
  - rewrite S in *. destruct (parse_value 0 S16) as (_ & V & _). rewrite V. cbn [Z.eqb]. cbn [factor Z.eqb] in C. assert (E : IZR i = IZR n) by (unfold factor in C; cbn [Z.eqb] in C; lra). apply eq_IZR in E.
    subst n. rewrite Rmult_1_l. unfold rn. apply round_generic; [typeclasses eauto|apply whole_format; change (2 ^ 53) with 9007199254740992; lia].
  - rewrite S in *. destruct (parse_value 1 S16) as (_ & V & _). rewrite V. cbn [Z.eqb Z.ltb Z.compare Pos.compare Pos.compare_cont]. assert (E : IZR i = IZR n) by (unfold factor in C; cbn [Z.eqb Z.ltb Z.compare] in C; lra). apply eq_IZR in E.
    subst n. rewrite Rmult_1_l. unfold rn. apply round_generic; [typeclasses eauto|apply whole_format; change (2 ^ 53) with 9007199254740992; lia].
  - pose proof (scale_near s S) as SN. assert (NEG : s < 0) by (destruct S as [E|[E|[E|[E|[]]]]]; lia). assert (KR : (0 < IZR (- s))%R) by (apply IZR_lt; lia).
    assert (FS : factor s = (/ IZR (- s))%R) by (unfold factor; replace (s =? 0) with false by lia; replace (0 <? s) with false by lia; reflexivity). rewrite FS in C.
    assert (IE : IZR i = (IZR n * IZR (- s))%R) by (rewrite <- C; field; lra). assert (IZ : i = n * - s) by (apply eq_IZR; rewrite mult_IZR; exact IE).
    apply (rn_near n _ (val (parse_scalar s) * IZR (- s))); [|exact SN|rewrite IE; ring].
    assert (Z.abs n <= Z.abs i). { rewrite IZ, Z.abs_mul. rewrite <- (Z.mul_1_r (Z.abs n)) at 1. apply Z.mul_le_mono_nonneg_l; lia. } change (2 ^ 53) with 9007199254740992. lia.
Qed.

(** ---- the header bytes of a copy ---- *)
Lemma history_bytes maxSize p h f0 f' nt ns src rl :
  written_file maxSize p h f0 f' nt ns -> usable rl -> counts rl MCopy <> 0 ->
  (forall x, In x h -> call_full src ns rl (snd x)) -> (forall b, file_bytes (fst (src b))) ->
  forall b, (exists r sizes t trc prm skip j, In (r, WTrace sizes t trc prm skip) h /\ 0 <= j < tcount t /\ tpos t j = b) ->
  forall x, 0 <= x < 240 -> is_byte (disk_header f' ns b x).
Proof.
  intros W (FR & FO) NC CC FB b (r & sizes & t & trc & prm & skip & j & I & J & E). destruct (src b) as (f, a) eqn:SRC.
  destruct (life_samples _ _ _ _ _ _ _ W) as (_ & _ & _ & L4 & _).
  pose proof (CC _ I) as C. cbn [snd call_full] in C. destruct trc as [m0|]; [|contradiction]. destruct prm as [p0|]; [|contradiction].
  assert (MD : forall x, In x h -> md_ok (snd x)).
  { intros x X. specialize (CC x X). destruct (snd x) as [| | | |sz' t' [m'|] [p'|] skip']; cbn [md_ok call_full] in *; try exact Logic.I; try contradiction.
    destruct CC as (A1 & A2 & A3 & A4 & _). rewrite A2. auto. }
  destruct (last_md h b) as [(p', tr)|] eqn:LM.
  - destruct (L4 b p' tr LM MD) as (_ & st & sz & sk & jj & buf & Q1 & Q2 & Q3 & Q4 & Q5 & Q6 & Q7 & Q8 & Q9 & Q10).
    assert (HB : p_rule p' = rl /\ copied_header p' (jj + sk) (disk_header f ns a)).
    { rewrite Q5. apply (last_in (fun o => written_md o b)) in LM. destruct LM as [LM|(r' & o' & I' & G)]; [discriminate|].
      specialize (CC _ I'). cbn [snd] in CC. destruct o' as [| | | |sz' t' [m'|] [p''|] skip']; cbn [written_md] in G; try discriminate; [|contradiction].
      destruct (find_pos t' b) as [j'|] eqn:FP; [|discriminate]. cbn [option_map] in G. injection G as -> <-. apply find_pos_some in FP. destruct FP as (J' & E').
      cbn [call_full] in CC. destruct CC as (_ & A2 & _ & _ & CC). specialize (CC j' J'). rewrite E', SRC in CC. split; [exact A2|]. apply CC. }
    destruct HB as (RL & HC0).
    assert (FH : forall x, is_byte (disk_header f ns a x)) by (intros x; pose proof (FB b) as FBb; rewrite SRC in FBb; apply FBb).
    destruct (header_full sz p' st sk buf jj (disk_header f ns a) Q6 (conj Q7 Q8) ltac:(rewrite RL; exact NC) Q1 Q3 Q4 Q2 Q9 HC0 FH) as (BB & _).
    intros x X. rewrite Q10 by exact X. apply BB. exact X.
  - exfalso. apply (last_some (fun o => written_md o b) h None) in LM; [exact LM|]. right. exists r, (WTrace sizes t (Some m0) (Some p0) skip). split; [exact I|].
    cbn [written_md]. pose proof (find_pos_of t b j J E). destruct (find_pos t b); [discriminate|contradiction].
Qed.

(** ---- the order of the copies ---- *)
Definition zero (a : D) : Prop := exists s, a = B754_zero s.
(** The same double, up to the sign of zero. *)
Definition sim (a b : D) : Prop := a = b \/ (zero a /\ zero b).
Lemma sim_of_val a b : is_finite a = true -> is_finite b = true -> val a = val b -> sim a b.
Proof.
  unfold val. intros A B V. destruct (is_finite_strict a) eqn:SA.
  - destruct (is_finite_strict b) eqn:SB; [left; apply B2R_inj; assumption|]. exfalso. destruct b as [s| | |s m e H]; try discriminate. change (B2R (B754_zero s)) with 0%R in V.
    pose proof (is_finite_strict_B2R _ _ a) as Q. destruct a as [t| | |t m e H]; try discriminate. cbn [B2R] in V. apply eq_0_F2R in V. destruct t; discriminate.
  - destruct a as [s| | |s m e H]; try discriminate. destruct b as [t| | |t m e H]; try discriminate; [right; split; eexists; reflexivity|].
    exfalso. cbn [B2R] in V. symmetry in V. apply eq_0_F2R in V. destruct t; discriminate.
Qed.
Lemma sim_dmul a a' b b' : sim a a' -> sim b b' -> sim (dmul a b) (dmul a' b').
Proof.
  intros [->|((s & ->) & (s' & ->))] [->|((t & ->) & (t' & ->))]; [left; reflexivity| | |].
  - destruct a' as [u|u| |u m e H]; try (left; reflexivity); right; split; eexists; reflexivity.
  - destruct b' as [u|u| |u m e H]; try (left; reflexivity); right; split; eexists; reflexivity.
  - right. split; eexists; reflexivity.
Qed.
Lemma zeros_dadd s t : zero (dadd (B754_zero s) (B754_zero t)). Proof. destruct s, t; eexists; reflexivity. Qed.
Lemma zeros_dsub s t : zero (dsub (B754_zero s) (B754_zero t)). Proof. destruct s, t; eexists; reflexivity. Qed.
Lemma sim_dadd a a' b b' : sim a a' -> sim b b' -> sim (dadd a b) (dadd a' b').
Proof.
  intros [->|((s & ->) & (s' & ->))] [->|((t & ->) & (t' & ->))]; [left; reflexivity| | |right; split; apply zeros_dadd].
  - destruct a' as [u|u| |u m e H]; try (left; reflexivity); right; split; apply zeros_dadd.
  - destruct b' as [u|u| |u m e H]; try (left; reflexivity); right; split; apply zeros_dadd.
Qed.
Lemma sim_dsub a a' b b' : sim a a' -> sim b b' -> sim (dsub a b) (dsub a' b').
Proof.
  intros [->|((s & ->) & (s' & ->))] [->|((t & ->) & (t' & ->))]; [left; reflexivity| | |right; split; apply zeros_dsub].
  - destruct a' as [u|u| |u m e H]; try (left; reflexivity); right; split; apply zeros_dsub.
  - destruct b' as [u|u| |u m e H]; try (left; reflexivity); right; split; apply zeros_dsub.
Qed.
Lemma sim_ext a b : sim a b -> ext a = ext b.
Proof. intros [->|((s & ->) & (t & ->))]; reflexivity. Qed.
Lemma off_values (x y : geo) : finite_geo x -> finite_geo y -> val (g_sx x) = val (g_sx y) -> val (g_sy x) = val (g_sy y) -> val (g_rx x) = val (g_rx y) -> val (g_ry x) = val (g_ry y) -> dist2 x = dist2 y.
Proof.
  intros (X1 & X2 & X3 & X4) (Y1 & Y2 & Y3 & Y4) V1 V2 V3 V4. unfold dist2, off. apply sim_ext. apply sim_dadd; apply sim_dmul; apply sim_dsub; apply sim_of_val; assumption.
Qed.
Lemma keys_follow type x x' y y' (W : Prop) : 35 <= type <= 43 -> type = 41 \/ type = 43 \/ W ->
  g_il x = g_il y -> g_xl x = g_xl y -> g_off x = g_off y ->
  (W -> val (g_sx x) = val (g_sx y) /\ val (g_sy x) = val (g_sy y) /\ val (g_rx x) = val (g_rx y) /\ val (g_ry x) = val (g_ry y)) ->
  g_il x' = g_il y' -> g_xl x' = g_xl y' -> g_off x' = g_off y' ->
  (W -> val (g_sx x') = val (g_sx y') /\ val (g_sy x') = val (g_sy y') /\ val (g_rx x') = val (g_rx y') /\ val (g_ry x') = val (g_ry y')) ->
  finite_geo x -> finite_geo x' -> finite_geo y -> finite_geo y' -> ~ lex (keys type y') (keys type y) -> g_ltn x < g_ltn x' -> lex (keys type x) (keys type x').
Proof.
  intros T CASE IL XL OF CO IL' XL' OF' CO' FX FX' FY FY' ORD LT. apply IZR_lt in LT.
  assert (ST : stored x = stored y) by (unfold stored; rewrite OF; reflexivity). assert (ST' : stored x' = stored y') by (unfold stored; rewrite OF'; reflexivity).
  assert (C : type = 35 \/ type = 36 \/ type = 37 \/ type = 38 \/ type = 39 \/ type = 40 \/ type = 41 \/ type = 42 \/ type = 43) by lia.
  assert (CE : type = 41 \/ type = 43 \/ (ext (g_sx x) = ext (g_sx y) /\ ext (g_sy x) = ext (g_sy y) /\ ext (g_rx x) = ext (g_rx y) /\ ext (g_ry x) = ext (g_ry y) /\ dist2 x = dist2 y) /\
    (ext (g_sx x') = ext (g_sx y') /\ ext (g_sy x') = ext (g_sy y') /\ ext (g_rx x') = ext (g_rx y') /\ ext (g_ry x') = ext (g_ry y') /\ dist2 x' = dist2 y')).
  { destruct CASE as [E|[E|WC]]; [left; exact E|right; left; exact E|right; right]. destruct (CO WC) as (V1 & V2 & V3 & V4). destruct (CO' WC) as (V1' & V2' & V3' & V4').
    pose proof (off_values x y FX FY V1 V2 V3 V4) as D. pose proof (off_values x' y' FX' FY' V1' V2' V3' V4') as D'.
    destruct FX as (X1 & X2 & X3 & X4), FX' as (X1' & X2' & X3' & X4'), FY as (Y1 & Y2 & Y3 & Y4), FY' as (Y1' & Y2' & Y3' & Y4').
    unfold val in *. rewrite !fin_ext by assumption. repeat split; assumption. }
  clear CASE CO CO'.
  destruct C as [->|[->|[->|[->|[->|[->|[->|[->| ->]]]]]]]];
    (destruct CE as [E|[E|((E1 & E2 & E3 & E4 & E5) & (E1' & E2' & E3' & E4' & E5'))]]; [try discriminate E|try discriminate E|try rewrite <- E1 in ORD; try rewrite <- E2 in ORD]);
    unfold keys in *; cbn [app lex] in *; rewrite ?IL, ?XL, ?IL', ?XL', ?ST, ?ST', ?E1, ?E2, ?E3, ?E4, ?E5, ?E1', ?E2', ?E3', ?E4', ?E5';
    repeat match goal with |- (?u < ?v)%R \/ _ => first [left; exact LT|destruct (Rtotal_order u v) as [?|[?|?]]; [left; assumption|right; split; [assumption|]|exfalso; apply ORD; repeat first [left; lra|right; split; [lra|]]]] end.
Qed.
