(** C67, C74, C75. *)
From Coq Require Import Sorted Permutation Lia.
From Verif Require Import Base DecompModel DecompSpec DecompProofs DataIOModel DataIOProofs SignalProofs UtilModel UtilSpec.
Import ListNotations.
Open Scope Z_scope.

(** ---- C67 ---- *)
Lemma quot_mul_l a b : b <> 0 -> Z.quot (b * a) b = a.
Proof. intros H. rewrite Z.mul_comm. apply Z.quot_mul, H. Qed.
(** One inline, crosslines one apart. *)
Theorem C67_one_inline_partial : forall nt i0 x0, 2 <= nt < two64 ->
  exists g, model_open nt (grid_il i0 1 nt) (grid_xl x0 1 nt) = Some g /\ forall k, 0 <= k < nt -> model_offset g (grid_il i0 1 nt k) (grid_xl x0 1 nt k) = k.
Proof.
  intros nt i0 x0 N. assert (IL : forall k, 0 <= k < nt -> grid_il i0 1 nt k = i0) by (intros k K; unfold grid_il; rewrite Z.div_small by lia; lia). assert (XL : forall k, 0 <= k < nt -> grid_xl x0 1 nt k = x0 + k) by (intros k K; unfold grid_xl; rewrite Z.mod_small by lia; lia).
  unfold model_open. destruct (Z.ltb_spec nt 2); [lia|]. rewrite !IL by lia. replace (i0 - i0) with 0 by lia. cbn [Z.eqb]. rewrite Z.div_1_r. destruct (Z.eqb_spec nt 0); [lia|]. rewrite !XL by lia.
  replace (x0 + (nt - 1) - (x0 + 0)) with (nt - 1) by lia. rewrite (Z.quot_small (nt - 1) nt) by lia. cbn [Z.eqb]. eexists. split; [reflexivity|]. intros k K. rewrite IL, XL by lia. unfold model_offset. cbn [il_start il_increment xl_count xl_start xl_increment]. replace (i0 - i0) with 0 by lia. rewrite Z.quot_1_r, Z.quot_1_r. rewrite u64_small by (unfold in_u64; lia). lia.
Qed.
Print Assumptions C67_one_inline_partial.
(** One crossline, at least three inlines any distance apart. *)
Theorem C67_one_crossline_partial : forall nt i0 di x0 dx, 3 <= nt < two64 -> di <> 0 ->
  exists g, model_open nt (grid_il i0 di 1) (grid_xl x0 dx 1) = Some g /\ forall k, 0 <= k < nt -> model_offset g (grid_il i0 di 1 k) (grid_xl x0 dx 1 k) = k.
Proof.
  intros nt i0 di x0 dx N D. assert (IL : forall k, grid_il i0 di 1 k = i0 + di * k) by (intros k; unfold grid_il; rewrite Z.div_1_r; reflexivity). assert (XL : forall k, grid_xl x0 dx 1 k = x0) by (intros k; unfold grid_xl; rewrite Z.mod_1_r; lia).
  unfold model_open. destruct (Z.ltb_spec nt 2); [lia|]. rewrite !IL, !XL. replace (i0 + di * 1 - (i0 + di * 0)) with di by lia. destruct (Z.eqb_spec di 0); [lia|]. replace (i0 + di * (nt - 1) - (i0 + di * 0)) with (di * (nt - 1)) by lia. rewrite quot_mul_l by exact D. destruct (Z.eqb_spec (nt - 1) 0); [lia|]. rewrite u64_small by (unfold in_u64; lia).
  assert (E : nt / (nt - 1) = 1) by (symmetry; apply (Z.div_unique _ _ 1 1); lia). rewrite E. cbn [Z.eqb]. replace (x0 - x0) with 0 by lia. cbn [Z.quot Z.quotrem Z.eqb fst]. eexists. split; [reflexivity|]. intros k K. rewrite IL, XL. unfold model_offset. cbn [il_start il_increment xl_count xl_start xl_increment]. replace (i0 + di * k - (i0 + di * 0)) with (di * k) by lia. rewrite quot_mul_l by exact D. replace (x0 - x0) with 0 by lia. cbn [Z.quot Z.quotrem fst]. rewrite u64_small by (unfold in_u64; lia). lia.
Qed.
Print Assumptions C67_one_crossline_partial.
(** Every grid with at least two inlines and two crosslines: the first trace of the
    second inline is looked for outside the file. *)
Theorem C67_grid_refuted : forall ni nx i0 di x0 dx, 2 <= ni -> 2 <= nx -> 0 < di -> di * (ni * nx) < two64 ->
  exists g, model_open (ni * nx) (grid_il i0 di nx) (grid_xl x0 dx nx) = Some g /\ ni * nx <= model_offset g (grid_il i0 di nx nx) (grid_xl x0 dx nx nx).
Proof.
  intros ni nx i0 di x0 dx NI NX D B. set (nt := ni * nx) in *. assert (N4 : 2 * nx <= nt) by (apply Z.mul_le_mono_nonneg_r; lia).
  assert (I0 : grid_il i0 di nx 0 = i0) by (unfold grid_il; rewrite Z.div_0_l by lia; lia). assert (I1 : grid_il i0 di nx 1 = i0) by (unfold grid_il; rewrite Z.div_small by lia; lia).
  unfold model_open. destruct (Z.ltb_spec nt 2); [lia|]. rewrite I0, I1. replace (i0 - i0) with 0 by lia. cbn [Z.eqb]. rewrite Z.div_1_r. destruct (Z.eqb_spec nt 0); [lia|]. eexists. split; [reflexivity|]. unfold model_offset. cbn [il_start il_increment xl_count xl_start xl_increment].
  assert (IN : grid_il i0 di nx nx = i0 + di) by (unfold grid_il; rewrite Z.div_same by lia; lia). assert (XN : grid_xl x0 dx nx nx = grid_xl x0 dx nx 0) by (unfold grid_xl; rewrite Z.mod_same, Z.mod_0_l by lia; reflexivity). rewrite IN, XN. replace (i0 + di - i0) with di by lia. rewrite Z.quot_1_r. replace (grid_xl x0 dx nx 0 - grid_xl x0 dx nx 0) with 0 by lia.
  replace (Z.quot 0 _) with 0. 2:{ set (q := if _ =? 0 then _ else _). destruct (Z.eq_dec q 0) as [->|Q]; [reflexivity|]. symmetry. apply Z.quot_0_l, Q. }
  assert (P : 1 * nt <= di * nt) by (apply Z.mul_le_mono_nonneg_r; lia). rewrite u64_small by (unfold in_u64; lia). lia.
Qed.
Print Assumptions C67_grid_refuted.
(** Files whose inlines run fastest: the second trace is not found. *)
Theorem C67_inlines_fastest_refuted : forall ni nx i0 di x0 dx, 2 <= ni -> 2 <= nx -> 0 < di -> ni * nx < two64 ->
  let il k := i0 + di * (k mod ni) in let xl k := x0 + dx * (k / ni) in
  exists g, model_open (ni * nx) il xl = Some g /\ model_offset g (il 1) (xl 1) <> 1.
Proof.
  intros ni nx i0 di x0 dx NI NX D B il xl. set (nt := ni * nx) in *. assert (N4 : 2 * nx <= nt) by (apply Z.mul_le_mono_nonneg_r; lia). assert (N5 : ni * 2 <= nt) by (apply Z.mul_le_mono_nonneg_l; lia).
  assert (I0 : il 0 = i0) by (unfold il; rewrite Z.mod_0_l by lia; lia). assert (I1 : il 1 = i0 + di) by (unfold il; rewrite Z.mod_small by lia; lia).
  assert (IL : il (nt - 1) = i0 + di * (ni - 1)). { unfold il. replace ((nt - 1) mod ni) with (ni - 1); [reflexivity|]. apply (Z.mod_unique _ _ (nx - 1)); [lia|unfold nt; lia]. }
  assert (X01 : xl 1 = xl 0) by (unfold xl; rewrite !Z.div_small by lia; reflexivity).
  unfold model_open. destruct (Z.ltb_spec nt 2); [lia|]. rewrite I0, I1, IL. replace (i0 + di - i0) with di by lia. destruct (Z.eqb_spec di 0); [lia|]. replace (i0 + di * (ni - 1) - i0) with (di * (ni - 1)) by lia. rewrite quot_mul_l by lia. destruct (Z.eqb_spec (ni - 1) 0); [lia|]. rewrite u64_small by (unfold in_u64; lia).
  assert (Q2 : 2 <= nt / (ni - 1)) by (apply Z.div_le_lower_bound; lia). assert (QU : nt / (ni - 1) <= nt) by (apply Z.div_le_upper_bound; [lia|]; rewrite <- (Z.mul_1_l nt) at 1; apply Z.mul_le_mono_nonneg_r; lia). destruct (Z.eqb_spec (nt / (ni - 1)) 0); [lia|].
  eexists. split; [reflexivity|]. unfold model_offset. cbn [il_start il_increment xl_count xl_start xl_increment]. rewrite X01. replace (i0 + di - i0) with di by lia. rewrite Z.quot_same by lia. replace (xl 0 - xl 0) with 0 by lia.
  replace (Z.quot 0 _) with 0. 2:{ set (q := if _ =? 0 then _ else _). destruct (Z.eq_dec q 0) as [->|Q]; [reflexivity|]. symmetry. apply Z.quot_0_l, Q. }
  rewrite u64_small by (unfold in_u64; lia). lia.
Qed.
Print Assumptions C67_inlines_fastest_refuted.
(** One inline with crosslines two or more apart: the last trace is looked for outside
    the file. *)
Theorem C67_increment_refuted : forall nt i0 x0 dx, 2 <= nt -> 2 <= dx -> (nt - 1) * dx < two64 ->
  exists g, model_open nt (grid_il i0 1 nt) (grid_xl x0 dx nt) = Some g /\ nt <= model_offset g (grid_il i0 1 nt (nt - 1)) (grid_xl x0 dx nt (nt - 1)).
Proof.
  intros nt i0 x0 dx N D B. assert (IL : forall k, 0 <= k < nt -> grid_il i0 1 nt k = i0) by (intros k K; unfold grid_il; rewrite Z.div_small by lia; lia). assert (XL : forall k, 0 <= k < nt -> grid_xl x0 dx nt k = x0 + dx * k) by (intros k K; unfold grid_xl; rewrite Z.mod_small by lia; lia).
  unfold model_open. destruct (Z.ltb_spec nt 2); [lia|]. rewrite !IL by lia. replace (i0 - i0) with 0 by lia. cbn [Z.eqb]. rewrite Z.div_1_r. destruct (Z.eqb_spec nt 0); [lia|]. rewrite !XL by lia. replace (x0 + dx * (nt - 1) - (x0 + dx * 0)) with (dx * (nt - 1)) by lia.
  set (q := Z.quot (dx * (nt - 1)) nt). assert (P : 2 * (nt - 1) <= dx * (nt - 1)) by (apply Z.mul_le_mono_nonneg_r; lia). assert (Q : q = dx * (nt - 1) / nt) by (apply Z.quot_div_nonneg; lia). assert (Q1 : 1 <= q) by (rewrite Q; apply Z.div_le_lower_bound; lia). assert (QM : nt * q <= dx * (nt - 1)) by (rewrite Q; apply Z.mul_div_le; lia).
  destruct (Z.eqb_spec q 0); [lia|]. eexists. split; [reflexivity|]. unfold model_offset. cbn [il_start il_increment xl_count xl_start xl_increment]. rewrite ?XL, ?IL by lia. replace (i0 - i0) with 0 by lia. rewrite Z.quot_1_r. replace (x0 + dx * (nt - 1) - (x0 + dx * 0)) with (dx * (nt - 1)) by lia. rewrite Z.quot_div_nonneg by lia.
  assert (LO : nt <= dx * (nt - 1) / q) by (apply Z.div_le_lower_bound; lia). assert (HI : dx * (nt - 1) / q <= dx * (nt - 1)) by (apply Z.div_le_upper_bound; [lia|]; rewrite <- (Z.mul_1_l (dx * (nt - 1))) at 1; apply Z.mul_le_mono_nonneg_r; lia). rewrite u64_small by (unfold in_u64; lia). lia.
Qed.
Print Assumptions C67_increment_refuted.
(** A file of two inlines and one crossline: the second trace is looked for at 2. *)
Theorem C67_two_traces_refuted : forall i0 di x0 dx, di <> 0 -> exists g, model_open 2 (grid_il i0 di 1) (grid_xl x0 dx 1) = Some g /\ model_offset g (grid_il i0 di 1 1) (grid_xl x0 dx 1 1) = 2.
Proof.
  intros i0 di x0 dx D. assert (IL : forall k, grid_il i0 di 1 k = i0 + di * k) by (intros k; unfold grid_il; rewrite Z.div_1_r; reflexivity). assert (XL : forall k, grid_xl x0 dx 1 k = x0) by (intros k; unfold grid_xl; rewrite Z.mod_1_r; lia).
  unfold model_open. cbn [Z.ltb Z.compare Pos.compare Pos.compare_cont]. rewrite !IL, !XL. replace (i0 + di * 1 - (i0 + di * 0)) with di by lia. destruct (Z.eqb_spec di 0); [lia|]. replace (i0 + di * (2 - 1) - (i0 + di * 0)) with (di * 1) by lia. rewrite quot_mul_l by exact D. replace (x0 - x0) with 0 by lia. eexists. split; [reflexivity|]. unfold model_offset. cbn [il_start il_increment xl_count xl_start xl_increment]. replace (i0 + di * 1 - (i0 + di * 0)) with (di * 1) by lia. rewrite quot_mul_l by exact D. replace (x0 - x0) with 0 by lia. reflexivity.
Qed.
Print Assumptions C67_two_traces_refuted.
(** A file of one trace cannot be opened as a model: trace 1 is read. *)
Theorem C67_one_trace_refuted : forall il xl, model_open 1 il xl = None.
Proof. reflexivity. Qed.
Print Assumptions C67_one_trace_refuted.
Example C67_demo : option_map (fun g => map (fun k => model_offset g (grid_il 100 5 1 k) (grid_xl 7 1 1 k)) [0; 1; 2; 3]) (model_open 4 (grid_il 100 5 1) (grid_xl 7 1 1)) = Some [0; 1; 2; 3] /\
  option_map (fun g => map (fun k => model_offset g (grid_il 100 1 3 k) (grid_xl 7 1 3 k)) [0; 1; 2; 3]) (model_open 6 (grid_il 100 1 3) (grid_xl 7 1 3)) = Some [0; 1; 2; 6].
Proof. split; vm_compute; reflexivity. Qed.

(** ---- C75 ---- *)
(** The place in round t of rank r: after the earlier rounds and the lower ranks that
    still have traces. *)
Definition before_round (num : list nat) (t : nat) : nat := list_sum (map (fun n => Nat.min n t) num).
Definition live_below (num : list nat) (t r : nat) : nat := length (filter (fun n => (t <? n)%nat) (firstn r num)).
Lemma fm_round_other rank : forall rest j off mine, (rank < j)%nat ->
  fm_round rank j rest off mine = (map pred rest, (off + length (filter (fun n => (0 <? n)%nat) rest))%nat, mine).
Proof.
  induction rest as [|n rest IH]; intros j off mine J; cbn [fm_round map filter].
  - cbn [length]. rewrite Nat.add_0_r. reflexivity.
  - destruct (Nat.eqb_spec j rank); [lia|]. destruct (Nat.eqb_spec n 0) as [->|N].
    + rewrite IH by lia. reflexivity.
    + rewrite IH by lia. destruct (Nat.ltb_spec 0 n); [|lia]. cbn [length]. replace (S off + _)%nat with (off + S (length (filter (fun n0 => (0 <? n0)%nat) rest)))%nat by lia. reflexivity.
Qed.
Lemma fm_round_spec rank : forall rest j off mine, (j <= rank)%nat -> (0 < nth (rank - j) rest 0)%nat ->
  fm_round rank j rest off mine = (map pred rest, (off + length (filter (fun n => (0 <? n)%nat) rest))%nat, mine ++ [(off + live_below rest 0 (rank - j))%nat]).
Proof.
  induction rest as [|n rest IH]; intros j off mine J P; [destruct (rank - j)%nat; cbn in P; lia|]. cbn [fm_round map filter]. destruct (Nat.eqb_spec j rank) as [->|NE].
  - rewrite Nat.sub_diag in *. cbn [nth] in P. rewrite fm_round_other by lia. destruct (Nat.ltb_spec 0 n); [|lia]. cbn [length]. unfold live_below. cbn [firstn filter length]. rewrite Nat.add_0_r. replace (S off + _)%nat with (off + S (length (filter (fun n0 => (0 <? n0)%nat) rest)))%nat by lia. reflexivity.
  - replace (rank - j)%nat with (S (rank - S j)) in * by lia. cbn [nth] in P. unfold live_below. cbn [firstn filter]. fold (live_below rest 0 (rank - S j)). destruct (Nat.eqb_spec n 0) as [->|N].
    + rewrite IH by (try lia; exact P). cbn [Nat.ltb Nat.leb pred]. reflexivity.
    + rewrite IH by (try lia; exact P). destruct (Nat.ltb_spec 0 n); [|lia]. cbn [length]. fold (live_below rest 0 (rank - S j)). replace (S off + length (filter (fun n0 => (0 <? n0)%nat) rest))%nat with (off + S (length (filter (fun n0 => (0 <? n0)%nat) rest)))%nat by lia. replace (S off + live_below rest 0 (rank - S j))%nat with (off + S (live_below rest 0 (rank - S j)))%nat by lia. reflexivity.
Qed.
Lemma before_S num t : before_round num (S t) = (before_round num t + length (filter (fun n => (t <? n)%nat) num))%nat.
Proof.
  unfold before_round. induction num as [|n num IH]; [reflexivity|]. cbn [map list_sum fold_right filter]. change (fold_right Nat.add 0%nat) with list_sum. rewrite IH. destruct (Nat.ltb_spec t n); cbn [length]; lia.
Qed.
Lemma before_le num t : (before_round num t <= list_sum num)%nat.
Proof. unfold before_round. induction num as [|n num IH]; [cbn; lia|]. cbn [map list_sum fold_right]. change (fold_right Nat.add 0%nat) with list_sum. lia. Qed.
Lemma before_lt num t r : (t < nth r num 0)%nat -> (before_round num t < list_sum num)%nat.
Proof.
  unfold before_round. revert r. induction num as [|n num IH]; intros r H; [destruct r; cbn in H; lia|]. cbn [map list_sum fold_right]. change (fold_right Nat.add 0%nat) with list_sum. destruct r as [|r]; cbn [nth] in H.
  - pose proof (before_le num t) as B. unfold before_round in B. lia.
  - specialize (IH r H). lia.
Qed.
Lemma fm_rounds_spec rank num0 nt : list_sum num0 = nt -> forall fuel t mine, (nth rank num0 0 - t < fuel)%nat -> (t <= nth rank num0 0)%nat ->
  fm_rounds fuel rank nt (map (fun n => n - t)%nat num0) (before_round num0 t) mine = mine ++ map (fun t => (before_round num0 t + live_below num0 t rank)%nat) (seq t (nth rank num0 0 - t)%nat).
Proof.
  intros SN. induction fuel as [|fuel IH]; intros t mine FU T; [lia|]. cbn [fm_rounds].
  assert (NT : nth rank (map (fun n => (n - t)%nat) num0) 0%nat = (nth rank num0 0 - t)%nat) by (rewrite <- (map_nth (fun n => (n - t)%nat)); reflexivity).
  rewrite NT. destruct (Nat.ltb_spec 0 (nth rank num0 0 - t)%nat) as [L|L].
  - assert (LT := before_lt num0 t rank ltac:(lia)). destruct (Nat.ltb_spec (before_round num0 t) nt); [|lia]. cbn [andb]. rewrite fm_round_spec by (rewrite ?Nat.sub_0_r, ?NT; lia). rewrite Nat.sub_0_r.
    assert (FL : forall l, length (filter (fun n => (0 <? n)%nat) (map (fun n => (n - t)%nat) l)) = length (filter (fun n => (t <? n)%nat) l)).
    { clear. induction l as [|n l IH]; [reflexivity|]. cbn [map filter]. destruct (Nat.ltb_spec 0 (n - t)), (Nat.ltb_spec t n); try lia; cbn [length]; rewrite IH; reflexivity. }
    rewrite FL, <- before_S. rewrite map_map, (map_ext (fun x => pred (x - t)) (fun n => (n - S t)%nat)) by (intros; lia). rewrite IH by lia.
    replace (nth rank num0 0 - t)%nat with (S (nth rank num0 0 - S t))%nat by lia. cbn [seq map]. rewrite <- app_assoc. cbn [app]. do 3 f_equal. unfold live_below at 1. rewrite firstn_map, FL. reflexivity.
  - cbn [andb]. replace (nth rank num0 0 - t)%nat with 0%nat by lia. cbn [seq map]. rewrite app_nil_r. reflexivity.
Qed.
Lemma offsets_exact rank num : random_offsets rank (list_sum num) num = map (fun t => (before_round num t + live_below num t rank)%nat) (seq 0 (nth rank num 0%nat)).
Proof.
  unfold random_offsets. assert (E0 : before_round num 0 = 0%nat) by (unfold before_round; clear; induction num as [|n num IH]; [reflexivity|]; cbn [map list_sum fold_right]; change (fold_right Nat.add 0%nat) with list_sum; rewrite IH; lia).
  pose proof (fm_rounds_spec rank num (list_sum num) eq_refl (S (nth rank num 0%nat)) 0 [] ltac:(lia) ltac:(lia)) as H. rewrite E0, Nat.sub_0_r in H. rewrite (map_ext (fun n => (n - 0)%nat) (fun n => n)), map_id in H by (intros; lia). exact H.
Qed.
Lemma row_seq (f : nat -> bool) base : forall k, map (fun r => (base + length (filter f (seq 0 r)))%nat) (filter f (seq 0 k)) = seq base (length (filter f (seq 0 k))).
Proof.
  induction k as [|k IH]; [reflexivity|]. rewrite seq_S, filter_app, map_app, IH, app_length. cbn [Nat.add filter]. destruct (f k); cbn [map length].
  - rewrite seq_app. reflexivity.
  - rewrite Nat.add_0_r, app_nil_r. reflexivity.
Qed.
Lemma live_seq num t : forall r, (r <= length num)%nat -> live_below num t r = length (filter (fun j => (t <? nth j num 0)%nat) (seq 0 r)).
Proof.
  unfold live_below. induction r as [|r IH]; intros R; [reflexivity|]. rewrite seq_S, filter_app, app_length. cbn [Nat.add filter]. rewrite <- IH by lia.
  assert (E : firstn (S r) num = firstn r num ++ [nth r num 0%nat]). { clear - R. revert r R. induction num as [|n num IH]; intros r R; [cbn in R; lia|]. destruct r as [|r]; [reflexivity|]. cbn [firstn nth app]. f_equal. apply IH. cbn [length] in R. lia. }
  rewrite E, filter_app, app_length. cbn [filter]. destruct (t <? nth r num 0)%nat; reflexivity.
Qed.
(** Every trace number is written by exactly one rank, and each rank's numbers rise. *)
Theorem C75_cover : forall num, let p := length num in let nt := list_sum num in
  Permutation (flat_map (fun r => random_offsets r nt num) (seq 0 p)) (seq 0 nt) /\
  forall r, (r < p)%nat -> length (random_offsets r nt num) = nth r num 0%nat /\ StronglySorted lt (random_offsets r nt num).
Proof.
  intros num p nt. set (pos := fun tr : nat * nat => (before_round num (fst tr) + live_below num (fst tr) (snd tr))%nat).
  assert (EX : forall r, random_offsets r nt num = map pos (map (fun t => (t, r)) (seq 0 (nth r num 0%nat)))) by (intros r; unfold nt; rewrite offsets_exact, map_map; reflexivity).
  assert (LMAX : forall r, (nth r num 0 <= list_max num)%nat).
  { clear. induction num as [|n num IH]; intros [|r]; cbn [nth list_max fold_right]; try (change (fold_right Nat.max 0%nat) with list_max); try lia. specialize (IH r). lia. }
  set (M := list_max num) in *. set (rows := flat_map (fun t => map (fun r => (t, r)) (filter (fun r => (t <? nth r num 0)%nat) (seq 0 p))) (seq 0 M)).
  set (cols := flat_map (fun r => map (fun t => (t, r)) (seq 0 (nth r num 0%nat))) (seq 0 p)).
  assert (LF : forall t, length (filter (fun n => (t <? n)%nat) num) = length (filter (fun r => (t <? nth r num 0)%nat) (seq 0 p))).
  { intros t. rewrite <- live_seq by (unfold p; lia). unfold live_below, p. rewrite firstn_all. reflexivity. }
  assert (RS : forall k, map pos (flat_map (fun t => map (fun r => (t, r)) (filter (fun r => (t <? nth r num 0)%nat) (seq 0 p))) (seq 0 k)) = seq 0 (before_round num k)).
  { induction k as [|k IH].
    - replace (before_round num 0) with 0%nat; [reflexivity|]. unfold before_round. clear. induction num as [|n num IH]; [reflexivity|]. cbn [map list_sum fold_right]. change (fold_right Nat.add 0%nat) with list_sum. lia.
    - rewrite seq_S, flat_map_app, map_app, IH. cbn [Nat.add flat_map]. rewrite app_nil_r, map_map, before_S, seq_app. f_equal. rewrite LF, <- row_seq. apply map_ext_in. intros r R. unfold pos. cbn [fst snd]. rewrite live_seq; [reflexivity|]. apply filter_In in R. destruct R as (R & _). apply in_seq in R. unfold p in R. lia. }
  assert (BM : before_round num M = nt).
  { unfold before_round, nt. assert (G : forall l, (forall n, In n l -> (n <= M)%nat) -> list_sum (map (fun n => Nat.min n M) l) = list_sum l).
    { clear. induction l as [|n l IH]; intros H; [reflexivity|]. cbn [map list_sum fold_right]. change (fold_right Nat.add 0%nat) with list_sum. rewrite IH by (intros; apply H; right; assumption). specialize (H n (or_introl eq_refl)). lia. }
    apply G. intros n N. destruct (In_nth num n 0%nat N) as (r & _ & <-). apply LMAX. }
  assert (NR : NoDup rows).
  { apply (NoDup_map_inv pos). unfold rows. rewrite RS. apply seq_NoDup. }
  assert (NC : NoDup cols).
  { unfold cols. clear. assert (G : forall k, NoDup (flat_map (fun r => map (fun t => (t, r)) (seq 0 (nth r num 0%nat))) (seq 0 k)) /\ forall x, In x (flat_map (fun r => map (fun t => (t, r)) (seq 0 (nth r num 0%nat))) (seq 0 k)) -> (snd x < k)%nat).
    { induction k as [|k (IH1 & IH2)]; [split; [constructor|intros x []]|]. rewrite seq_S, flat_map_app. cbn [Nat.add flat_map]. rewrite app_nil_r. split.
      - assert (N2 : NoDup (map (fun t => (t, k)) (seq 0 (nth k num 0%nat)))) by (apply FinFun.Injective_map_NoDup; [intros a b E; congruence|apply seq_NoDup]).
        revert IH1 IH2 N2. generalize (flat_map (fun r => map (fun t => (t, r)) (seq 0 (nth r num 0%nat))) (seq 0 k)). intros l. induction l as [|x l IH]; intros H1 H2 N2; [exact N2|]. cbn [app]. inversion H1 as [|? ? NI ND]; subst. constructor; [|apply IH; [exact ND|intros y Y; apply H2; right; exact Y|exact N2]]. intros I. apply in_app_or in I. destruct I as [I|I]; [contradiction|]. apply in_map_iff in I. destruct I as (t & <- & _). specialize (H2 _ (or_introl eq_refl)). cbn [snd] in H2. lia.
      - intros x I. apply in_app_or in I. destruct I as [I|I]; [specialize (IH2 x I); lia|]. apply in_map_iff in I. destruct I as (t & <- & _). cbn [snd]. lia. }
    apply (G p). }
  assert (PC : Permutation cols rows).
  { apply NoDup_Permutation; [exact NC|exact NR|]. intros (t, r). unfold cols, rows. rewrite !in_flat_map. split.
    - intros (r' & R & I). apply in_map_iff in I. destruct I as (t' & E & T). injection E as -> ->. apply in_seq in T. exists t. split; [apply in_seq; specialize (LMAX r); lia|]. apply in_map_iff. exists r. split; [reflexivity|]. apply filter_In. split; [exact R|]. apply Nat.ltb_lt. lia.
    - intros (t' & T & I). apply in_map_iff in I. destruct I as (r' & E & R). injection E as -> ->. apply filter_In in R. destruct R as (R & L). apply Nat.ltb_lt in L. exists r. split; [exact R|]. apply in_map_iff. exists t. split; [reflexivity|]. apply in_seq. lia. }
  split.
  - assert (E1 : flat_map (fun r => random_offsets r nt num) (seq 0 p) = map pos cols).
    { unfold cols. generalize (seq 0 p). intros l. induction l as [|r l IH]; [reflexivity|]. cbn [flat_map]. rewrite map_app, IH, EX. reflexivity. }
    rewrite E1. rewrite (Permutation_map pos PC). unfold rows. rewrite RS, BM. reflexivity.
  - intros r R. rewrite EX, !map_length, seq_length. split; [reflexivity|]. rewrite map_map. unfold pos. cbn [fst snd].
    assert (MONO : forall t, (S t < nth r num 0)%nat \/ True -> (before_round num t + live_below num t r < before_round num (S t) + live_below num (S t) r)%nat \/ (nth r num 0 <= t)%nat).
    { intros t _. destruct (Nat.le_gt_cases (nth r num 0%nat) t) as [|G]; [right; lia|]. left. rewrite before_S, LF. rewrite live_seq by (unfold p in R; lia). 
      assert (LT : (length (filter (fun j => (t <? nth j num 0)%nat) (seq 0 r)) < length (filter (fun j => (t <? nth j num 0)%nat) (seq 0 p)))%nat).
      { replace p with (r + S (p - S r))%nat by lia. rewrite seq_app, filter_app, app_length. cbn [Nat.add seq filter]. destruct (Nat.ltb_spec t (nth r num 0%nat)); [|lia]. cbn [length]. lia. }
      lia. }
    assert (ST : forall n a, (a + n <= nth r num 0)%nat -> StronglySorted lt (map (fun t => (before_round num t + live_below num t r)%nat) (seq a n))).
    { induction n as [|n IH]; intros a A; [constructor|]. cbn [seq map]. constructor; [apply IH; lia|]. apply Forall_forall. intros x X. apply in_map_iff in X. destruct X as (t & <- & T). apply in_seq in T. 
      assert (MT : forall d, (a + S d < nth r num 0)%nat -> (before_round num a + live_below num a r < before_round num (a + S d) + live_below num (a + S d) r)%nat).
      { induction d as [|d IHd]; intros Dd.
        - replace (a + 1)%nat with (S a) by lia. destruct (MONO a (or_intror I)); lia.
        - replace (a + S (S d))%nat with (S (a + S d)) by lia. destruct (MONO (a + S d)%nat (or_intror I)); [|lia]. specialize (IHd ltac:(lia)). lia. }
      specialize (MT (t - S a)%nat). replace (a + S (t - S a))%nat with t in MT by lia. apply MT. lia. }
    apply ST. lia.
Qed.
Print Assumptions C75_cover.
Example C75_demo : map (fun r => random_offsets r 6 [3; 1; 2]%nat) [0; 1; 2]%nat = [[0; 3; 5]; [1]; [2; 4]]%nat.
Proof. reflexivity. Qed.
