(** Proofs about the example that makes a file. *)
From Coq Require Import Reals Lra.
From Flocq Require Import Core IEEE754.BinarySingleNaN.
From Verif Require Import Base DecompModel DecompSpec DecompProofs NumEncModel NumEncSpec NumEncProofs CharEncModel CharEncProofs LayoutModel LayoutProofs DataIOModel DataIOProofs
  RuleModel RuleProofs DoubleModel ParamModel ParamProofs HeaderProofs ScalarProofs FileSpec FileModel FileProofs WriteSpec WriteProofs ParamProperties ReadProofs OpenProofs FileProperties TraceProperties.
From Verif Require Import FloatModel FloatProofs AngleModel SetOpsModel SetOpsProofs CopySpec CopyProofs ExampleModel ExampleProofs PieceProofs CreateModel CreateSpec.
Import ListNotations.
Open Scope Z_scope.

(** ---- integers in single precision ---- *)
Lemma single_rnd x : single x = rnd x. Proof. reflexivity. Qed.
Lemma single_int i : exists z, single (IZR i) = IZR z.
Proof.
  destruct (Z_le_dec (Z.abs i) two24) as [L|G].
  - exists i. rewrite single_rnd. apply FloatProofs.int_rnd. exact L.
  - unfold single, round, F2R. cbn [Fnum Fexp]. set (c := cexp radix2 (FLT_exp (-149) 24) (IZR i)).
    assert (C : 0 <= c).
    { unfold c, cexp, FLT_exp. assert (M : 24 < mag radix2 (IZR i)); [|lia]. apply mag_gt_bpow. rewrite <- abs_IZR.
      change (bpow radix2 24) with (IZR two24). apply IZR_le. lia. }
    set (n := ZnearestE _). exists (n * 2 ^ c). rewrite mult_IZR, pow_IZR by exact C. reflexivity.
Qed.
Lemma single_le x y : (x <= y)%R -> (single x <= single y)%R.
Proof. intros H. unfold single. apply round_le; [apply FLT_exp_valid; reflexivity|apply valid_rnd_N|exact H]. Qed.
(** 2^30 + 2^22, and 2^46, are single precision numbers. *)
Lemma single_pow m e : 0 <= e -> Z.abs m < 2 ^ 24 -> single (IZR (m * 2 ^ e)) = IZR (m * 2 ^ e).
Proof.
  intros E M. apply round_generic; [apply valid_rnd_N|]. apply generic_format_FLT. exists (Float radix2 m e); cbn [Fnum Fexp]; [|exact M|lia].
  unfold F2R. cbn [Fnum Fexp]. rewrite mult_IZR, pow_IZR by exact E. reflexivity.
Qed.
Lemma single_range i m e : 0 <= e -> Z.abs m < 2 ^ 24 -> 0 <= i <= m * 2 ^ e -> exists z, single (IZR i) = IZR z /\ 0 <= z <= m * 2 ^ e.
Proof.
  intros E M I. destruct (single_int i) as (z & Z1). exists z. split; [exact Z1|]. split; apply le_IZR; rewrite <- Z1.
  - rewrite <- (FloatProofs.int_rnd 0) by (vm_compute; discriminate). rewrite <- single_rnd. apply single_le, IZR_le. lia.
  - rewrite <- (single_pow m e E M). apply single_le, IZR_le. lia.
Qed.
Lemma of_Z_single i : Z.abs i <= 2 ^ 64 -> ffin (f_of_Z i) /\ B2R (f_of_Z i) = single (IZR i).
Proof.
  intros H. pose proof (binary_normalize_correct prec32 emax32 Hprec32 Hmax32 mode_NE i 0 false) as C. cbv zeta in C.
  assert (E : F2R (Float radix2 i 0) = IZR i) by (unfold F2R; cbn [Fnum Fexp bpow]; lra). rewrite E in C. rewrite Rlt_bool_true in C; [destruct C as (A & B & _); split; [exact B|exact A]|].
  change (Rabs (single (IZR i)) < bpow radix2 128)%R. apply Rle_lt_trans with (bpow radix2 64); [|apply bpow_lt; reflexivity].
  assert (G : (single (bpow radix2 64) = bpow radix2 64)%R).
  { rewrite <- (pow_IZR 64) by lia. pose proof (single_pow 1 64 ltac:(lia) ltac:(reflexivity)) as Q. rewrite Z.mul_1_l in Q. exact Q. }
  assert (G' : (single (- bpow radix2 64) = - bpow radix2 64)%R) by (unfold single; rewrite round_NE_opp; fold (single (bpow radix2 64)); rewrite G; reflexivity).
  assert (P64 : 2 ^ 64 = 18446744073709551616) by reflexivity.
  assert (BI : (- bpow radix2 64 <= IZR i <= bpow radix2 64)%R) by (rewrite <- (pow_IZR 64), <- opp_IZR by lia; split; apply IZR_le; lia).
  apply Rabs_le. destruct BI as (B1 & B2). split.
  - eapply Rle_trans; [right; symmetry; exact G'|]. apply single_le. exact B1.
  - eapply Rle_trans; [apply single_le; exact B2|]. right. exact G.
Qed.
Lemma add_single a b : ffin a -> ffin b -> (Rabs (single (B2R a + B2R b)) < bpow radix2 128)%R -> ffin (fadd a b) /\ B2R (fadd a b) = single (B2R a + B2R b).
Proof.
  intros A B H. pose proof (Bplus_correct prec32 emax32 Hprec32 Hmax32 mode_NE a b A B) as C. rewrite Rlt_bool_true in C by exact H. destruct C as (C1 & C2 & _). split; [exact C2|exact C1].
Qed.
(** The conversion to double is exact. *)
Lemma d_of_F_exact x : ffin x -> fin (d_of_F x) /\ val (d_of_F x) = B2R x.
Proof.
  intros Fx. destruct x as [s|s| |s m e B]; try discriminate; [split; reflexivity|]. unfold d_of_F.
  pose proof (binary_normalize_correct prec64 emax64 Hprec64 Hmax64 mode_NE (if s then Zneg m else Zpos m) e s) as C. cbv zeta in C.
  assert (E : (if s then Z.neg m else Z.pos m) = SpecFloat.cond_Zopp s (Z.pos m)) by (destruct s; reflexivity). rewrite E in *.
  set (v := F2R (Float radix2 (SpecFloat.cond_Zopp s (Z.pos m)) e)) in *. change (B2R (B754_finite s m e B)) with v.
  pose proof B as B'. unfold SpecFloat.bounded in B'. apply andb_true_iff in B'. destruct B' as (CM & EM). unfold SpecFloat.canonical_mantissa in CM. apply Zeq_bool_eq in CM.
  unfold SpecFloat.fexp, SpecFloat.emin in CM. rewrite Zpos_digits2_pos in CM. unfold prec32, emax32 in CM, EM. apply Zle_bool_imp_le in EM.
  assert (MB : Z.pos m < 2 ^ 24).
  { apply Z.nle_gt. intros Q. assert (D24 : 24 < Zdigits radix2 (Z.pos m)) by (apply Zdigits_gt_Zpower; cbn [Z.abs]; exact Q). lia. }
  assert (R : round radix2 (SpecFloat.fexp prec64 emax64) (round_mode mode_NE) v = v).
  { apply round_generic; [apply valid_rnd_round_mode|]. apply generic_format_FLT. exists (Float radix2 (SpecFloat.cond_Zopp s (Z.pos m)) e); [reflexivity| |].
    - cbn [Fnum]. change (radix2 ^ prec64) with 9007199254740992. change (2 ^ 24) with 16777216 in MB. destruct s; cbn [SpecFloat.cond_Zopp Z.opp Z.abs]; lia.
    - cbn [Fexp]. unfold SpecFloat.emin, prec64, emax64. lia. }
  rewrite R in C. rewrite Rlt_bool_true in C; [destruct C as (C1 & C2 & _); split; [exact C2|exact C1]|].
  unfold v. rewrite <- F2R_Zabs. replace (Z.abs (SpecFloat.cond_Zopp s (Z.pos m))) with (Z.pos m) by (destruct s; reflexivity).
  apply Rlt_le_trans with (bpow radix2 (24 + e)); [|apply bpow_le; unfold emax64; lia]. unfold F2R. cbn [Fnum Fexp]. rewrite bpow_plus. apply Rmult_lt_compat_r; [apply bpow_gt_0|].
  rewrite <- (pow_IZR 24) by lia. apply IZR_lt. exact MB.
Qed.
Lemma dadd_int a b m n : fin a -> fin b -> val a = IZR m -> val b = IZR n -> 0 < m + n <= 2 ^ 40 -> dadd a b = d_of_Z (m + n).
Proof.
  intros Fa Fb Va Vb MN. assert (P40 : 2 ^ 40 = 1099511627776) by reflexivity. assert (P53 : 2 ^ 53 = 9007199254740992) by reflexivity.
  destruct (d_of_Z_exact (m + n) ltac:(lia)) as (V & F).
  pose proof (Bplus_correct prec64 emax64 Hprec64 Hmax64 mode_NE a b Fa Fb) as C.
  assert (E : round radix2 (SpecFloat.fexp prec64 emax64) (round_mode mode_NE) (B2R a + B2R b) = IZR (m + n)).
  { unfold val in Va, Vb. rewrite Va, Vb, <- plus_IZR. apply round_generic; [apply valid_rnd_round_mode|apply ScalarProofs.int_format; lia]. }
  rewrite E, Rlt_bool_true in C by (apply ScalarProofs.int_small; lia). destruct C as (C1 & C2 & _). apply (D_ext _ _ (m + n)); [exact C2|exact F|exact C1|exact V|lia].
Qed.

(** ---- the entries of one trace ---- *)
(** The header of trace i: z is i as a float, il and xl the rounded sums. *)
Definition create_field (i z il xl l : Z) : Z :=
  if l =? 5 then i else if l =? 189 then il else if l =? 193 then xl else if l =? 73 then 1600 + z else if l =? 77 then 2400 + z else
  if l =? 81 then 100000 + z else if l =? 85 then 3000000 + z else if l =? 181 then 10000 + z else if l =? 185 then 4000 + z else 0.
Definition create_want (i z il xl m : Z) : value :=
  match loc_of m with Some l => plain_value m (create_field i z il xl l) | None => VI 0 end.
Definition lim : Z := 1073741824.
Lemma row_numbers i : 0 <= i < lim -> exists z il xl, 0 <= z <= lim /\ 0 <= il <= lim + 4194304 /\ 0 <= xl <= lim + 4194304 /\
  single (IZR i) = IZR z /\ single (2400 + single (IZR i)) = IZR il /\ single (1600 + single (IZR i)) = IZR xl.
Proof.
  unfold lim. intros I. destruct (single_range i 1 30 ltac:(lia) ltac:(reflexivity) ltac:(change (1 * 2 ^ 30) with 1073741824; lia)) as (z & E & B). change (1 * 2 ^ 30) with 1073741824 in B.
  destruct (single_range (2400 + z) 257 22 ltac:(lia) ltac:(reflexivity) ltac:(change (257 * 2 ^ 22) with 1077936128; lia)) as (il & E1 & B1). change (257 * 2 ^ 22) with 1077936128 in B1.
  destruct (single_range (1600 + z) 257 22 ltac:(lia) ltac:(reflexivity) ltac:(change (257 * 2 ^ 22) with 1077936128; lia)) as (xl & E2 & B2). change (257 * 2 ^ 22) with 1077936128 in B2.
  exists z, il, xl. rewrite E. rewrite plus_IZR in E1, E2. repeat (split; [lia|]). auto.
Qed.
Lemma field_range i z il xl : 0 <= i < lim -> 0 <= z <= lim -> 0 <= il <= lim + 4194304 -> 0 <= xl <= lim + 4194304 -> forall l, in_s32 (create_field i z il xl l).
Proof. unfold lim. intros I Z1 Z2 Z3 l. unfold create_field, in_s32. repeat (match goal with |- context [if ?b then _ else _] => destruct b end); lia. Qed.
Lemma create_row i z il xl : 0 <= i < lim -> 0 <= z <= lim -> 0 <= il <= lim + 4194304 -> 0 <= xl <= lim + 4194304 ->
  single (IZR i) = IZR z -> single (2400 + single (IZR i)) = IZR il -> single (1600 + single (IZR i)) = IZR xl ->
  forall m v, In (m, v) (create_values (f_of_Z i) i) ->
  exists e, lookup m (translate default_rule) = Some e /\ fits_type (e_type e) (create_want i z il xl m) /\ convert (e_type e) v = Some (create_want i z il xl m).
Proof.
  unfold lim. intros I Z1 Z2 Z3 E1 E2 E3.
  assert (P40 : 2 ^ 40 = 1099511627776) by reflexivity. assert (P53 : 2 ^ 53 = 9007199254740992) by reflexivity. assert (P62 : 2 ^ 62 = 4611686018427387904) by reflexivity. assert (P64 : 2 ^ 64 = 18446744073709551616) by reflexivity.
  destruct (of_Z_single i ltac:(lia)) as (Fk & Vk). rewrite E1 in Vk. destruct (d_of_F_exact _ Fk) as (Fd & Vd). rewrite Vk in Vd.
  assert (DA : forall c, 0 < c <= 3000000 -> dadd (d_of_Z c) (d_of_F (f_of_Z i)) = d_of_Z (c + z)).
  { intros c C. destruct (d_of_Z_exact c ltac:(lia)) as (Vc & Fc). apply dadd_int; try assumption. lia. }
  assert (FA : forall c y, 0 < c <= two24 -> single (IZR c + single (IZR i)) = IZR y -> 0 <= y <= 1077936128 -> dtrunc (d_of_F (fadd (f_of_Z c) (f_of_Z i))) = Some y).
  { unfold two24. intros c y C Y B. destruct (of_Z_int c ltac:(unfold two24; lia)) as (Fc & Vc).
    destruct (add_single (f_of_Z c) (f_of_Z i) Fc Fk) as (Fs & Vs).
    - rewrite Vc, Vk, <- E1, Y. rewrite <- abs_IZR. apply Rle_lt_trans with (bpow radix2 40); [|apply bpow_lt; reflexivity]. rewrite <- (pow_IZR 40) by lia. apply IZR_le. lia.
    - rewrite Vc, Vk, <- E1, Y in Vs. destruct (d_of_F_exact _ Fs) as (Fq & Vq). apply dtrunc_int; [exact Fq|rewrite Vq; exact Vs|lia]. }
  pose proof (FA 2400 il ltac:(unfold two24; lia) E2 ltac:(lia)) as T1. pose proof (FA 1600 xl ltac:(unfold two24; lia) E3 ltac:(lia)) as T2. clear FA.
  intros m v V. unfold create_values in V. rewrite !DA in V by lia. set (y1 := d_of_F (fadd (f_of_Z 2400) (f_of_Z i))) in *. set (y2 := d_of_F (fadd (f_of_Z 1600) (f_of_Z i))) in *. clearbody y1 y2. clear DA Fk Vk Fd Vd E1 E2 E3.
  destruct V as [V|[V|[V|[V|[V|[V|[V|[V|[V|[]]]]]]]]]]; pose proof (f_equal fst V) as V1; pose proof (f_equal snd V) as V2; clear V; cbn [fst snd] in V1, V2; subst m v; (eexists; split; [vm_compute; reflexivity|]); unfold create_want; cbn [loc_of e_type];
    unfold plain_value, create_field; cbn [Z.eqb Z.leb Z.compare Pos.eqb Pos.compare Pos.compare_cont andb fits_type convert]; try (split; [exact Logic.I|reflexivity]).
  - split; [unfold in_s64; lia|]. rewrite T1. reflexivity.
  - split; [unfold in_s64; lia|]. rewrite T2. reflexivity.
  - split; [unfold in_s64; lia|]. rewrite s64_id by (unfold in_s64; lia). reflexivity.
Qed.
Lemma values_keys k t : map fst (create_values k t) = [20; 21; 22; 23; 24; 25; 26; 27; 5]. Proof. reflexivity. Qed.

(** ---- the calls of a rank ---- *)
Lemma want_exists i : 0 <= i < lim -> exists g, (forall l, in_s32 (g l)) /\ g 5 = i /\ g 37 = 0 /\ single (2400 + single (IZR i)) = IZR (g 189) /\ single (1600 + single (IZR i)) = IZR (g 193) /\
  (forall l c, In (l, c) created_coordinates -> (IZR c + single (IZR i))%R = IZR (g l)) /\
  (forall m v, In (m, v) (create_values (f_of_Z i) i) -> exists l e, loc_of m = Some l /\ lookup m (translate default_rule) = Some e /\ fits_type (e_type e) (plain_value m (g l)) /\ convert (e_type e) v = Some (plain_value m (g l))).
Proof.
  intros I. destruct (row_numbers i I) as (z & il & xl & Z1 & Z2 & Z3 & E1 & E2 & E3). exists (create_field i z il xl). split; [apply field_range; assumption|].
  split; [reflexivity|]. split; [reflexivity|]. split; [exact E2|]. split; [exact E3|]. split.
  - intros l c [Q|[Q|[Q|[Q|[Q|[Q|[]]]]]]]; injection Q as <- <-; rewrite E1, <- plus_IZR; reflexivity.
  - intros m v V. destruct (create_row i z il xl I Z1 Z2 Z3 E1 E2 E3 m v V) as (e & L & FT & C). unfold create_want in FT, C.
    assert (K : In m (map fst (create_values (f_of_Z i) i))) by (apply (in_map fst) in V; exact V). rewrite values_keys in K.
    destruct (loc_of m) as [l|] eqn:LO; [exists l, e; auto|]. exfalso. destruct K as [<-|[<-|[<-|[<-|[<-|[<-|[<-|[<-|[<-|[]]]]]]]]]]; discriminate LO.
Qed.
Definition field_of (i : Z) (g : Z -> Z) : Prop :=
  (forall l, in_s32 (g l)) /\ g 5 = i /\ g 37 = 0 /\ single (2400 + single (IZR i)) = IZR (g 189) /\ single (1600 + single (IZR i)) = IZR (g 193) /\
  (forall l c, In (l, c) created_coordinates -> (IZR c + single (IZR i))%R = IZR (g l)).
(** The fields are determined by the trace number. *)
Lemma fields_unique i g g' : field_of i g -> field_of i g' -> forall l, In l plain_fields -> g l = g' l.
Proof.
  intros (_ & A1 & A2 & A3 & A4 & A5) (_ & B1 & B2 & B3 & B4 & B5) l L.
  assert (C : forall l c, In (l, c) created_coordinates -> g l = g' l) by (intros l' c Q; apply eq_IZR; rewrite <- (A5 l' c Q), <- (B5 l' c Q); reflexivity).
  destruct L as [<-|[<-|[<-|[<-|[<-|[<-|[<-|[<-|[<-|[<-|[]]]]]]]]]]].
  - congruence.
  - congruence.
  - apply (C 73 1600). cbn. tauto.
  - apply (C 77 2400). cbn. tauto.
  - apply (C 81 100000). cbn. tauto.
  - apply (C 85 3000000). cbn. tauto.
  - apply (C 181 10000). cbn. tauto.
  - apply (C 185 4000). cbn. tauto.
  - apply eq_IZR. congruence.
  - apply eq_IZR. congruence.
Qed.
Lemma zero_slot rl n i m e : good rl -> 0 <= i < n -> lookup m (translate rl) = Some e -> e_type e = MLong -> getPrm i m (newParam rl n) = Some (VI 0).
Proof.
  intros G I L T. rewrite (getPrm_at (newParam rl n) i m e); [rewrite T; reflexivity|apply newParam_wf; [exact G|lia]|exact L|congruence|exact I].
Qed.
Lemma params_spec off lnt : 0 <= off -> 0 <= lnt -> off + lnt <= lim ->
  exists prm, create_params off lnt = Some prm /\ wf_param prm /\ p_rule prm = default_rule /\ p_sz prm = lnt /\
  (forall j g, 0 <= j < lnt -> field_of (off + j) g -> holds prm j (plain_header g)).
Proof.
  intros O N L. assert (LT : lim < two64) by (unfold lim, two64; lia).
  (* the fields of each trace, as a function *)
  assert (CH : exists G : Z -> Z -> Z, forall j, 0 <= j < lnt -> field_of (off + j) (G j) /\
    (forall m v, In (m, v) (create_values (f_of_Z (off + j)) (off + j)) -> exists l e, loc_of m = Some l /\ lookup m (translate default_rule) = Some e /\ fits_type (e_type e) (plain_value m (G j l)) /\ convert (e_type e) v = Some (plain_value m (G j l)))).
  { assert (X : forall n, exists G : Z -> Z -> Z, forall j, 0 <= j < Z.of_nat n -> j < lnt -> field_of (off + j) (G j) /\
      (forall m v, In (m, v) (create_values (f_of_Z (off + j)) (off + j)) -> exists l e, loc_of m = Some l /\ lookup m (translate default_rule) = Some e /\ fits_type (e_type e) (plain_value m (G j l)) /\ convert (e_type e) v = Some (plain_value m (G j l)))).
    { induction n as [|n (G & IH)]; [exists (fun _ _ => 0); intros; lia|]. destruct (Z_lt_dec (Z.of_nat n) lnt) as [LN|LN].
      - destruct (want_exists (off + Z.of_nat n) ltac:(lia)) as (g & G1 & G2 & G3 & G4 & G5 & G6 & G7). exists (fun j => if j =? Z.of_nat n then g else G j). intros j J J'.
        destruct (Z.eqb_spec j (Z.of_nat n)) as [->|D]; [split; [repeat (split; [assumption|]); assumption|exact G7]|]. apply IH; lia.
      - exists G. intros j J J'. apply IH; lia. }
    destruct (X (Z.to_nat lnt)) as (G & H). exists G. intros j J. apply H; lia. }
  destruct CH as (G & HG).
  set (row := fun j => create_values (f_of_Z (u64 (off + j))) (u64 (off + j))).
  assert (RW : forall j, 0 <= j < lnt -> row j = create_values (f_of_Z (off + j)) (off + j)) by (intros j J; unfold row; rewrite u64_small by (unfold in_u64; lia); reflexivity).
  set (want := fun j m => match loc_of m with Some l => plain_value m (G j l) | None => VI 0 end).
  destruct (set_rows default_rule row want lnt (newParam default_rule lnt)) as (prm & E & W & R & S & GS & GO).
  - apply newParam_wf; [apply default_good|exact N].
  - reflexivity.
  - cbn [p_sz newParam]. lia.
  - intros j J. unfold row. rewrite values_keys. repeat (constructor; [cbn; intuition discriminate|]). constructor.
  - intros j m v J V. rewrite (RW j J) in V. destruct (HG j J) as (_ & H). destruct (H m v V) as (l & e & LO & LK & FT & C). exists e. unfold want. rewrite LO. auto.
  - exists prm. split; [exact E|]. split; [exact W|]. split; [exact R|]. split; [exact S|]. intros j g J FG. destruct (HG j J) as (FJ & _).
    pose proof (fields_unique _ _ _ FG FJ) as U. apply plain_holds; [exact R|intros l _; apply FG|]. intros m l LO.
    assert (IL : In l plain_fields /\ (In m [20; 21; 22; 23; 24; 25; 26; 27; 5] \/ m = 14 /\ l = 37)).
    { clear - LO. unfold loc_of in LO. destruct m as [|q|q]; try discriminate.
      repeat (match type of LO with match ?q with _ => _ end = _ => destruct q; try discriminate LO end); injection LO as <-; cbn; intuition lia. }
    destruct IL as (IL & [K|(-> & ->)]).
    + rewrite GS by (exact J || (unfold row; rewrite values_keys; exact K)). unfold want. rewrite LO. rewrite (U l IL). reflexivity.
    + rewrite GO; [|exact J|unfold row; rewrite values_keys; cbn; intuition discriminate].
      destruct FG as (_ & _ & Q & _). rewrite Q. transitivity (Some (VI 0)); [|reflexivity].
      apply (zero_slot default_rule lnt j 14 (mkEntry MLong 0 37 0)); [apply default_good|exact J|vm_compute; reflexivity|reflexivity].
Qed.
Lemma samples_spec off ns j k : 0 <= off -> 0 <= ns <= 32767 -> 0 <= j -> off + j < lim -> 0 <= k < ns ->
  sample (create_samples off ns) (j * ns + k) = enc_f (f_of_Z ((off + j) * ns + k)).
Proof.
  intros O N J L K. assert (T : (off + j) * ns + k < two64).
  { assert ((off + j) * ns <= lim * 32767) by (apply Z.mul_le_mono_nonneg; lia). unfold lim, two64 in *. lia. }
  assert (P : 0 <= (off + j) * ns) by (apply Z.mul_nonneg_nonneg; lia).
  assert (B : forall r, 0 <= r < 4 -> create_samples off ns (4 * (j * ns + k) + r) = nth (Z.to_nat r) (le_bytes (enc_f (f_of_Z ((off + j) * ns + k)))) 0).
  { intros r R. unfold create_samples. replace (4 * (j * ns + k) + r) with (r + (j * ns + k) * 4) by lia. rewrite Z.div_add, Z.mod_add by lia. rewrite Z.div_small, Z.mod_small by lia.
    rewrite u64_small; [|unfold in_u64; lia]. do 4 f_equal. lia. }
  unfold sample, le32. pose proof (B 0 ltac:(lia)) as B0. rewrite Z.add_0_r in B0. rewrite B0, (B 1), (B 2), (B 3) by lia. apply le_bytes_value, enc_range.
Qed.
Lemma samples_bytes off ns : mem_bytes (create_samples off ns).
Proof. intros q. apply SetOpsProofs.le_bytes_byte. Qed.
