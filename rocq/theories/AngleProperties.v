(** C98. *)
From Coq Require Import Lia.
From Flocq Require Import Core IEEE754.BinarySingleNaN.
From Verif Require Import Base DataIOModel DataIOProofs DoubleModel FloatModel SignalModel SignalProofs FilterProofs AngleModel.
Import ListNotations.
Open Scope Z_scope.

(** ---- the specification ---- *)
(** What the transform is to give for angle j and sample z: sample z of trace number
    llround(v / cos(angle)) / vBin, where v is the velocity that the gather's own model
    trace holds at the time of sample z; nothing where there is no such trace. *)
Section Spec.
Context (ccos : D -> D) (llround : D -> Z).
Definition wanted_trace (v : F) (oInc : D) (vBin j : Z) : Z :=
  s64 (u64 (llround (ddiv (d_of_F v) (ccos (dmul (d_of_Z j) oInc)))) / vBin).
Definition wanted (velocity : Z -> F) (oInc : D) (vBin size ns : Z) (trc : list F) (j z : Z) : F :=
  let k := wanted_trace (velocity z) oInc vBin j in
  if (0 <? k) && (k <? size) then nth (Z.to_nat (k * ns + z)) trc f0 else f0.
End Spec.

Section C98.
Context (ccos : D -> D) (llround : D -> Z).
Lemma zget_nth {X} (d : X) s i : 0 <= i < zlen s -> zget s i = Done (nth (Z.to_nat i) s d).
Proof. intros H. unfold zget, zlen in *. destruct (Z.ltb_spec i 0); [lia|]. rewrite nth_error_nth' with (d := d) by lia. reflexivity. Qed.
(** What one step does, given where the velocity is. *)
Lemma sample_step st b j z i n g : 0 <= z < b_ns b -> 0 <= j -> (j + 1) * b_ns b <= n -> zlen (b_trc b) = b_size b * b_ns b -> s_vBin st <> 0 ->
  model_place st (b_gNum b) (b_inc b) z = Done i -> 0 <= i < zlen (s_vtrc st) -> (forall k, k = j * b_ns b + z -> g k = f0) ->
  angle_sample ccos llround st b j z (tab n g) =
  Done (tab n (fun k => if k =? j * b_ns b + z then wanted ccos llround (fun _ => nth (Z.to_nat i) (s_vtrc st) f0) (s_oInc st) (s_vBin st) (b_size b) (b_ns b) (b_trc b) j z else g k)).
Proof.
  intros Z J N L B M I G. unfold angle_sample. rewrite M. cbn [obnd]. rewrite (zget_nth f0) by exact I. cbn [obnd]. unfold trace_of.
  destruct (Z.eqb_spec (s_vBin st) 0); [congruence|]. cbn [obnd]. unfold wanted. cbv zeta. fold (wanted_trace ccos llround (nth (Z.to_nat i) (s_vtrc st) f0) (s_oInc st) (s_vBin st) j).
  set (k := wanted_trace _ _ _ _ _ _). clearbody k. destruct ((0 <? k) && (k <? b_size b)) eqn:C.
  - apply andb_prop in C. destruct C as [C1 C2]. apply Z.ltb_lt in C1, C2. assert (0 <= k * b_ns b) by (apply Z.mul_nonneg_nonneg; lia). assert ((k + 1) * b_ns b <= b_size b * b_ns b) by (apply Z.mul_le_mono_nonneg_r; lia).
    rewrite (zget_nth f0) by lia. cbn [obnd]. apply tab_set. assert (0 <= j * b_ns b) by (apply Z.mul_nonneg_nonneg; lia). lia.
  - f_equal. apply tab_ext. intros q Q. destruct (Z.eqb_spec q (j * b_ns b + z)) as [->|]; [apply G; reflexivity|reflexivity].
Qed.
Lemma place_in st gNum inc z t : size_of (ddiv (dmul (d_of_Z z) inc) (s_vInc st)) = Done t -> model_place st gNum inc z = Done (gNum * s_vNs st + Z.min t (s_vNs st)).
Proof. intros H. unfold model_place. rewrite H. reflexivity. Qed.

(** The whole gather, when every sample has its place inside the model. *)
Lemma gather_value st b (place : Z -> Z) : 0 < b_size b -> 0 <= b_ns b -> 0 < s_oGSz st -> zlen (b_trc b) = b_size b * b_ns b -> s_vBin st <> 0 ->
  0 <= b_gNum b < zlen (s_il st) -> zlen (s_xl st) = zlen (s_il st) ->
  (forall z, 0 <= z < b_ns b -> model_place st (b_gNum b) (b_inc b) z = Done (place z) /\ 0 <= place z < zlen (s_vtrc st)) ->
  angle_gather ccos llround st b = Done
    (tab (s_oGSz st * b_ns b) (fun q => wanted ccos llround (fun z => nth (Z.to_nat (place z)) (s_vtrc st) f0) (s_oInc st) (s_vBin st) (b_size b) (b_ns b) (b_trc b) (q / b_ns b) (q mod b_ns b)),
     repeat (nth (Z.to_nat (b_gNum b)) (s_il st) 0) (Z.to_nat (s_oGSz st)), repeat (nth (Z.to_nat (b_gNum b)) (s_xl st) 0) (Z.to_nat (s_oGSz st))).
Proof.
  intros S NS O L B G X P. unfold angle_gather. destruct (Z.eqb_spec (b_size b) 0) as [n0|n0]; [lia|]. destruct (Z.eqb_spec (s_oGSz st) 0) as [n1|n1]; [lia|].
  set (w := fun j z => wanted ccos llround (fun z => nth (Z.to_nat (place z)) (s_vtrc st) f0) (s_oInc st) (s_vBin st) (b_size b) (b_ns b) (b_trc b) j z).
  set (n := s_oGSz st * b_ns b). rewrite tab_repeat.
  assert (R : forall j z, 0 <= j -> 0 <= z < b_ns b -> (j * b_ns b + z) / b_ns b = j /\ (j * b_ns b + z) mod b_ns b = z).
  { intros j z J Z. rewrite (Z.add_comm (j * b_ns b)). split; [rewrite Z.div_add by lia; rewrite Z.div_small by lia; lia|rewrite Z.mod_add by lia; apply Z.mod_small; lia]. }
  set (val := fun q => w (q / b_ns b) (q mod b_ns b)).
  set (upto := fun c => tab n (fun q => if q <? c then val q else f0)).
  assert (LOOP : for_each (fun j out => for_each (fun z out => angle_sample ccos llround st b j z out) (zr (b_ns b)) out) (zr (s_oGSz st)) (upto 0) = Done (upto n)).
  { unfold n. apply (for_states _ (fun j => upto (j * b_ns b))); [lia|]. intros j J.
    assert (U0 : upto (j * b_ns b) = upto (j * b_ns b + 0)) by (f_equal; lia). rewrite U0.
    assert (U1 : upto ((j + 1) * b_ns b) = upto (j * b_ns b + b_ns b)) by (f_equal; lia). rewrite U1.
    apply (for_states _ (fun z => upto (j * b_ns b + z))); [exact NS|]. intros z Z. destruct (P z Z) as [P1 P2].
    unfold upto. rewrite (sample_step st b j z (place z)); [|exact Z|lia| |exact L|exact B|exact P1|exact P2|].
    - f_equal. apply tab_ext. intros q Q. destruct (Z.eqb_spec q (j * b_ns b + z)) as [->|NE].
      + destruct (Z.ltb_spec (j * b_ns b + z) (j * b_ns b + (z + 1))); [|lia]. unfold val. destruct (R j z) as [-> ->]; [lia|exact Z|]. reflexivity.
      + destruct (Z.ltb_spec q (j * b_ns b + z)), (Z.ltb_spec q (j * b_ns b + (z + 1))); try lia; reflexivity.
    - unfold n. apply Z.mul_le_mono_nonneg_r; lia.
    - intros q ->. destruct (Z.ltb_spec (j * b_ns b + z) (j * b_ns b + z)); [lia|reflexivity]. }
  assert (U0 : tab n (fun _ => f0) = upto 0). { unfold upto. apply tab_ext. intros q Q. destruct (Z.ltb_spec q 0); [lia|reflexivity]. }
  rewrite U0, LOOP. cbn [obnd]. rewrite (zget_nth 0) by lia. cbn [obnd]. rewrite (zget_nth 0) by lia. cbn [obnd].
  do 3 f_equal. unfold upto. apply tab_ext. intros q Q. destruct (Z.ltb_spec q n); [reflexivity|lia].
Qed.
End C98.

(** A model trace as long as the data: for every gather of a rank the output is as wanted,
    with its own velocities and its own inline and crossline. *)
Theorem C98_own_model_partial : forall ccos llround st b gathers (time : Z -> Z),
  0 <= b_gNum b < gathers -> zlen (s_il st) = gathers -> zlen (s_xl st) = gathers -> zlen (s_vtrc st) = gathers * s_vNs st ->
  0 < b_size b -> 0 <= b_ns b -> zlen (b_trc b) = b_size b * b_ns b -> 0 < s_vBin st -> 0 < s_oGSz st ->
  (forall z, 0 <= z < b_ns b -> size_of (ddiv (dmul (d_of_Z z) (b_inc b)) (s_vInc st)) = Done (time z) /\ 0 <= time z < s_vNs st) ->
  exists out, angle_gather ccos llround st b = Done (out, repeat (nth (Z.to_nat (b_gNum b)) (s_il st) 0) (Z.to_nat (s_oGSz st)), repeat (nth (Z.to_nat (b_gNum b)) (s_xl st) 0) (Z.to_nat (s_oGSz st))) /\
    zlen out = s_oGSz st * b_ns b /\
    forall j z, 0 <= j < s_oGSz st -> 0 <= z < b_ns b ->
      nth (Z.to_nat (j * b_ns b + z)) out f0 =
      wanted ccos llround (fun z => nth (Z.to_nat (time z)) (firstn (Z.to_nat (s_vNs st)) (skipn (Z.to_nat (b_gNum b * s_vNs st)) (s_vtrc st))) f0)
             (s_oInc st) (s_vBin st) (b_size b) (b_ns b) (b_trc b) j z.
Proof.
  intros ccos llround st b gathers time G IL XL VT S NS L B O T.
  set (place := fun z => b_gNum b * s_vNs st + time z).
  assert (PL : forall z, 0 <= z < b_ns b -> model_place st (b_gNum b) (b_inc b) z = Done (place z) /\ 0 <= place z < zlen (s_vtrc st)).
  { intros z Z. destruct (T z Z) as [T1 T2]. rewrite (place_in st _ _ z (time z) T1). rewrite Z.min_l by lia. split; [reflexivity|]. unfold place.
    assert (0 <= b_gNum b * s_vNs st) by (apply Z.mul_nonneg_nonneg; lia). assert ((b_gNum b + 1) * s_vNs st <= gathers * s_vNs st) by (apply Z.mul_le_mono_nonneg_r; lia). lia. }
  eexists. split; [apply (gather_value ccos llround st b place S NS O L); [lia|lia|lia|exact PL]|]. split; [apply tab_zlen; apply Z.mul_nonneg_nonneg; lia|].
  intros j z J Z. assert (0 <= j * b_ns b) by (apply Z.mul_nonneg_nonneg; lia). assert ((j + 1) * b_ns b <= s_oGSz st * b_ns b) by (apply Z.mul_le_mono_nonneg_r; lia).
  match goal with |- nth ?i (tab ?n ?g) f0 = _ => rewrite (nth_error_nth (tab n g) i f0 (x := g (Z.of_nat i))) by (apply tab_nth; lia) end. rewrite Z2Nat.id by lia.
  assert ((j * b_ns b + z) / b_ns b = j) as -> by (rewrite (Z.add_comm (j * b_ns b)), Z.div_add by lia; rewrite Z.div_small by lia; lia).
  assert ((j * b_ns b + z) mod b_ns b = z) as -> by (rewrite (Z.add_comm (j * b_ns b)), Z.mod_add by lia; apply Z.mod_small; lia).
  unfold wanted. cbv zeta. destruct (T z Z) as [_ T2].
  assert (nth (Z.to_nat (place z)) (s_vtrc st) f0 = nth (Z.to_nat (time z)) (firstn (Z.to_nat (s_vNs st)) (skipn (Z.to_nat (b_gNum b * s_vNs st)) (s_vtrc st))) f0) as ->; [|reflexivity].
  assert (0 <= b_gNum b * s_vNs st) by (apply Z.mul_nonneg_nonneg; lia).
  unfold place. rewrite Z2Nat.inj_add by lia. generalize (Z.to_nat (b_gNum b * s_vNs st)) as a. assert (LT : (Z.to_nat (time z) < Z.to_nat (s_vNs st))%nat) by lia. revert LT. generalize (Z.to_nat (time z)) as c. generalize (Z.to_nat (s_vNs st)) as m. generalize (s_vtrc st) as l. clear.
  intros l m c LT a. revert l. induction a as [|a IH]; intros l.
  - cbn [plus skipn]. revert c l LT. induction m as [|m IH]; intros c l LT; [lia|]. destruct l as [|x l]; [reflexivity|]. destruct c as [|c]; [reflexivity|]. cbn [firstn nth]. apply IH. lia.
  - destruct l as [|x l]; [rewrite skipn_nil; rewrite firstn_nil; destruct c; reflexivity|]. cbn [plus nth skipn]. apply IH.
Qed.
Print Assumptions C98_own_model_partial.

(** A model trace shorter than the data: from its end on, a gather is given the velocity at
    the start of the next gather's model trace. *)
Theorem C98_short_model_refuted : forall ccos llround st b gathers j z t n g,
  0 <= b_gNum b -> b_gNum b + 1 < gathers -> zlen (s_vtrc st) = gathers * s_vNs st -> 0 < s_vNs st ->
  0 <= z < b_ns b -> 0 <= j -> (j + 1) * b_ns b <= n -> zlen (b_trc b) = b_size b * b_ns b -> 0 < s_vBin st -> g (j * b_ns b + z) = f0 ->
  size_of (ddiv (dmul (d_of_Z z) (b_inc b)) (s_vInc st)) = Done t -> s_vNs st <= t ->
  angle_sample ccos llround st b j z (tab n g) = Done (tab n (fun k => if k =? j * b_ns b + z
    then wanted ccos llround (fun _ => nth (Z.to_nat ((b_gNum b + 1) * s_vNs st)) (s_vtrc st) f0) (s_oInc st) (s_vBin st) (b_size b) (b_ns b) (b_trc b) j z else g k)).
Proof.
  intros ccos llround st b gathers j z t n g G G2 VT V Z J N L B G0 T TV.
  apply sample_step; try assumption; try lia.
  - rewrite (place_in st _ _ z t T). rewrite Z.min_r by lia. f_equal. lia.
  - assert (0 <= (b_gNum b + 1) * s_vNs st) by (apply Z.mul_nonneg_nonneg; lia). assert ((b_gNum b + 1 + 1) * s_vNs st <= gathers * s_vNs st) by (apply Z.mul_le_mono_nonneg_r; lia). lia.
  - intros k ->. exact G0.
Qed.
Print Assumptions C98_short_model_refuted.

(** The last gather of a rank reads past the end of the model. *)
Theorem C98_last_gather_refuted : forall ccos llround st b gathers z t,
  b_gNum b = gathers - 1 -> 0 < gathers -> zlen (s_vtrc st) = gathers * s_vNs st -> 0 < s_vNs st -> 0 < s_oGSz st -> b_size b <> 0 ->
  0 <= z < b_ns b ->
  size_of (ddiv (dmul (d_of_Z z) (b_inc b)) (s_vInc st)) = Done t -> s_vNs st <= t ->
  angle_gather ccos llround st b = Undefined.
Proof.
  intros ccos llround st b gathers z t G GP VT V O SZ Z T TV. unfold angle_gather. destruct (Z.eqb_spec (b_size b) 0); [congruence|].
  assert (UD : forall out, angle_sample ccos llround st b 0 z out = Undefined).
  { intros out. unfold angle_sample. rewrite (place_in st _ _ z t T). rewrite Z.min_r by lia. cbn [obnd]. assert (zget (s_vtrc st) (b_gNum b * s_vNs st + s_vNs st) = Undefined) as ->; [|reflexivity].
    unfold zget. assert (0 <= gathers * s_vNs st) by (apply Z.mul_nonneg_nonneg; lia). rewrite G. replace ((gathers - 1) * s_vNs st + s_vNs st) with (gathers * s_vNs st) by lia. destruct (Z.ltb_spec (gathers * s_vNs st) 0); [reflexivity|]. rewrite <- VT. unfold zlen. rewrite Nat2Z.id.
    assert (nth_error (s_vtrc st) (length (s_vtrc st)) = None) as -> by (apply nth_error_None; lia). reflexivity. }
  assert (NA : forall j y out, angle_sample ccos llround st b j y out <> Abort).
  { clear. assert (NG : forall X (s : list X) i, zget s i <> Abort) by (intros X s i; unfold zget; destruct (i <? 0); [discriminate|]; destruct (nth_error s (Z.to_nat i)); discriminate).
    assert (NZ : forall X (s : list X) i x, zset s i x <> Abort) by (intros X s i x; unfold zset; destruct (_ && _); discriminate).
    intros j y out. unfold angle_sample, model_place, trace_of. 
    assert (NS' : forall x, size_of x <> Abort) by (intros [| | |s m e ?]; cbn; try discriminate; destruct (_ && _); discriminate).
    match goal with |- context [size_of ?i] => destruct (size_of i) eqn:E1 end; [|exfalso; exact (NS' _ E1)|discriminate]. cbn [obnd]. match goal with |- context [zget (s_vtrc st) ?i] => destruct (zget (s_vtrc st) i) eqn:E2 end; [|exfalso; exact (NG _ _ _ E2)|discriminate]. cbn [obnd].
    destruct (s_vBin st =? 0); cbn [obnd]; [discriminate|]. destruct (_ && _); [|discriminate]. match goal with |- context [zget (b_trc b) ?i] => destruct (zget (b_trc b) i) eqn:E3 end; [cbn [obnd]; apply NZ|exfalso; exact (NG _ _ _ E3)|discriminate]. }
  assert (FE : forall js out, (forall j, In j js -> 0 <= j) -> In z js -> for_each (fun z out => angle_sample ccos llround st b 0 z out) js out = Undefined).
  { induction js as [|y js IH]; intros out H I; [destruct I|]. cbn [for_each]. destruct (Z.eq_dec y z) as [->|NE]; [rewrite UD; reflexivity|]. destruct (angle_sample ccos llround st b 0 y out) eqn:E; [cbn [obnd]|exfalso; exact (NA _ _ _ E)|reflexivity].
    apply IH; [intros; apply H; right; assumption|destruct I; [congruence|assumption]]. }
  replace (zr (s_oGSz st)) with (0 :: map (fun k => k + 1) (zr (s_oGSz st - 1))).
  - cbn [for_each]. rewrite FE; [reflexivity|intros j Hj; apply in_zr in Hj; lia|apply in_zr; lia].
  - symmetry. pose proof (zr_app 1 (s_oGSz st - 1)) as Q. replace (1 + (s_oGSz st - 1)) with (s_oGSz st) in Q by lia. rewrite Q by lia. change (zr 1) with [0]. cbn [app]. f_equal. apply map_ext. intros; lia.
Qed.
Print Assumptions C98_last_gather_refuted.

(** Two gathers, model traces of two samples, data of two and of three samples with the
    same sample interval (one second). *)
Definition ex_st : angle_state := mkState [f_of_Z 1; f_of_Z 2; f_of_Z 3; f_of_Z 1] [7; 8] [5; 6] 2 1 2 (d_of_Z 1) (d_of_Z 1).
Definition ex_b (g ns : Z) : gblock := mkBlock 3 ns (d_of_Z 1) g (map f_of_Z (zr (3 * ns))).
Example ex_C98 : (forall z, 0 <= z < 2 -> size_of (ddiv (dmul (d_of_Z z) (b_inc (ex_b 0 2))) (s_vInc ex_st)) = Done z /\ 0 <= z < s_vNs ex_st) /\
  zlen (s_vtrc ex_st) = 2 * s_vNs ex_st /\ zlen (b_trc (ex_b 0 2)) = b_size (ex_b 0 2) * b_ns (ex_b 0 2) /\
  size_of (ddiv (dmul (d_of_Z 2) (b_inc (ex_b 0 3))) (s_vInc ex_st)) = Done 2 /\ s_vNs ex_st <= 2.
Proof.
  split; [|split; [reflexivity|split; [reflexivity|split; [vm_compute; reflexivity|cbn; lia]]]].
  intros z Z. assert (z = 0 \/ z = 1) as [->| ->] by lia; (split; [vm_compute; reflexivity|cbn; lia]).
Qed.
