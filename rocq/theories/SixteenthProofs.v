(** Coordinates that are multiples of a sixteenth are read exactly at every plain scale. *)
From Coq Require Import Reals Lra Permutation Sorted.
From Flocq Require Import Core IEEE754.BinarySingleNaN.
From Verif Require Import Base DecompModel DecompSpec DecompProofs NumEncModel NumEncSpec NumEncProofs CharEncModel CharEncProofs LayoutModel LayoutProofs DataIOModel DataIOProofs
  RuleModel RuleProofs DoubleModel ParamModel ParamProofs HeaderProofs ScalarProofs FileSpec FileModel FileProofs WriteSpec WriteProofs RuleProperties ParamProperties ReadProofs OpenProofs FileProperties TraceProperties.
From Verif Require Import SortSpec SortModel SortProofs CompProofs SortProperties FlowModel FlowProofs FlowProperties CopySpec CopyProofs CopyProperties ExampleModel ExampleProofs SetFileModel SetFileSpec SetFileProofs SetOutProofs SetSortModel SetSortSpec SetSortProofs VerifyModel.
From Verif Require Import VerifyProofs.
Import ListNotations.
Open Scope Z_scope.

Lemma rn_close_pos g x : generic_format radix2 fx g -> (0 <= g)%R -> (g <= x <= g * (1 + bpow radix2 (-54)))%R -> rn x = g.
Proof.
  intros G N0 X. destruct (Req_dec g 0) as [Z|NZ].
  { rewrite Z in *. assert (x = 0%R) as -> by lra. unfold rn. apply round_0. typeclasses eauto. }
  apply Rle_antisym.
  - apply round_N_le_midp; [typeclasses eauto|exact G|]. rewrite succ_eq_pos by exact N0. assert (P53 : Prec_gt_0 53) by reflexivity. pose proof (ulp_FLT_gt radix2 (-1074) 53 g) as U. rewrite Rabs_pos_eq in U by exact N0. fold fx in U.
    change (- (53)) with (-53) in U. assert (B : (bpow radix2 (-53) = 2 * bpow radix2 (-54))%R) by (change (-53) with (-54 + 1); rewrite bpow_plus_1; reflexivity). rewrite B in U. lra.
  - rewrite <- (round_generic radix2 fx ZnearestE _ G). apply round_le; [typeclasses eauto|typeclasses eauto|lra].
Qed.
Lemma rn_close g x c : generic_format radix2 fx g -> (1 <= c <= 1 + bpow radix2 (-54))%R -> x = (c * g)%R -> rn x = g.
Proof.
  intros G C ->. destruct (Rle_lt_dec 0 g) as [P|P].
  - apply rn_close_pos; [exact G|exact P|]. split; [|rewrite (Rmult_comm c)]; [rewrite <- (Rmult_1_l g) at 1; apply Rmult_le_compat_r; lra|apply Rmult_le_compat_l; lra].
  - replace (c * g)%R with (- (c * - g))%R by ring. unfold rn. rewrite round_NE_opp. fold (rn (c * - g)). rewrite (rn_close_pos (- g)); [ring|apply generic_format_opp, G|lra|].
    assert (0 <= - g)%R by lra. split; [|rewrite (Rmult_comm c)]; [rewrite <- (Rmult_1_l (- g)) at 1; apply Rmult_le_compat_r; lra|apply Rmult_le_compat_l; lra].
Qed.
Lemma sixteenth_format n : Z.abs n < 2 ^ 53 -> generic_format radix2 fx (IZR n / 16).
Proof.
  intros H. replace (IZR n / 16)%R with (F2R (Float radix2 n (-4))) by (unfold F2R; cbn; field). apply generic_format_FLT. exists (Float radix2 n (-4)); [reflexivity|exact H|cbn; lia].
Qed.
Lemma sixteenth_read h l n : plain_scale (int16_at h 71) -> in_s32 (int32_at h l) -> coordinate h l 71 = (IZR n / 16)%R -> val (read_coordinate h l) = (IZR n / 16)%R.
Proof.
  intros PS I C. unfold coordinate in C. set (s := int16_at h 71) in *. set (i := int32_at h l) in *.
  assert (S16 : in_s16 s) by (unfold in_s16; destruct PS as [E|[E|[E|[E|[E|[E|[]]]]]]]; rewrite <- E; lia).
  destruct (coordinate_rn h l S16 I) as (_ & ->). fold s i. unfold in_s32 in I.
  assert (CASE : s = 0 \/ s = 1 \/ In s [-10; -100; -1000; -10000]) by (destruct PS as [E|[E|PS]]; [left; congruence|right; left; congruence|right; right; exact PS]).
  assert (IB : (Rabs (IZR i) <= 2147483648)%R) by (rewrite <- abs_IZR; apply IZR_le; lia).
  assert (FB : (Rabs (factor s) <= 1)%R).
  { unfold factor. destruct CASE as [S|[S|S]]; [rewrite S; cbn [Z.eqb]; rewrite Rabs_R1; lra|rewrite S; cbn [Z.eqb Z.ltb Z.compare]; rewrite Rabs_R1; lra|]. assert (NEG : s <= -10) by (destruct S as [E|[E|[E|[E|[]]]]]; lia).
    replace (s =? 0) with false by lia. replace (0 <? s) with false by lia. rewrite Rabs_inv. assert (10 <= IZR (- s))%R by (apply IZR_le; lia). rewrite (Rabs_pos_eq (IZR (- s))) by lra. rewrite <- Rinv_1. apply Rinv_le; lra. }
  assert (G : generic_format radix2 fx (IZR n / 16)).
  { apply sixteenth_format. apply lt_IZR. rewrite abs_IZR. assert (NB : (Rabs (IZR n / 16) <= 2147483648)%R) by (rewrite <- C, Rabs_mult, <- (Rmult_1_r 2147483648); apply Rmult_le_compat; try apply Rabs_pos; assumption).
    unfold Rdiv in NB. rewrite Rabs_mult, (Rabs_pos_eq (/ 16)) in NB by lra. change (2 ^ 53) with 9007199254740992. lra. }
  destruct CASE as [S|[S|S]].
  - rewrite S in *. destruct (parse_value 0 S16) as (_ & V & _). rewrite V. cbn [Z.eqb]. assert (E : IZR i = (IZR n / 16)%R) by (unfold factor in C; cbn [Z.eqb] in C; lra). rewrite E, Rmult_1_l. unfold rn. apply round_generic; [typeclasses eauto|exact G].
  - rewrite S in *. destruct (parse_value 1 S16) as (_ & V & _). rewrite V. cbn [Z.eqb Z.ltb Z.compare Pos.compare Pos.compare_cont]. assert (E : IZR i = (IZR n / 16)%R) by (unfold factor in C; cbn [Z.eqb Z.ltb Z.compare] in C; lra). rewrite E, Rmult_1_l. unfold rn. apply round_generic; [typeclasses eauto|exact G].
  - pose proof (scale_near s S) as SN. assert (NEG : s < 0) by (destruct S as [E|[E|[E|[E|[]]]]]; lia). assert (KR : (0 < IZR (- s))%R) by (apply IZR_lt; lia).
    assert (FS : factor s = (/ IZR (- s))%R) by (unfold factor; replace (s =? 0) with false by lia; replace (0 <? s) with false by lia; reflexivity). rewrite FS in C.
    apply (rn_close _ _ (val (parse_scalar s) * IZR (- s)) G SN). rewrite <- C. field. lra.
Qed.
