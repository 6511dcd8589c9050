(** Proofs about the C version of the example that makes a file. *)
From Coq Require Import Reals Lra.
From Flocq Require Import Core IEEE754.BinarySingleNaN.
From Verif Require Import Base DecompModel DecompSpec DecompProofs NumEncModel NumEncSpec NumEncProofs CharEncModel CharEncProofs LayoutModel LayoutProofs DataIOModel DataIOProofs
  RuleModel RuleProofs DoubleModel ParamModel ParamProofs HeaderProofs ScalarProofs FileSpec FileModel FileProofs WriteSpec WriteProofs ParamProperties ReadProofs OpenProofs FileProperties TraceProperties.
From Verif Require Import FloatModel FloatProofs AngleModel SetOpsModel SetOpsProofs CopySpec CopyProofs ExampleModel ExampleProofs PieceProofs CreateModel CreateSpec CreateProofs CreateCModel CreateCSpec.
Import ListNotations.
Open Scope Z_scope.

Lemma values_keys_c k t : map fst (create_values_c k t) = [20; 21; 22; 23; 24; 25; 26; 27; 5]. Proof. reflexivity. Qed.
Definition field_of_c (i : Z) (g : Z -> Z) : Prop :=
  (forall l, in_s32 (g l)) /\ g 5 = i /\ g 37 = 0 /\ g 189 = 2400 + i /\ g 193 = 1600 + i /\
  (forall l c, In (l, c) created_coordinates -> (IZR c + single (IZR i))%R = IZR (g l)).
Lemma want_exists_c i : 0 <= i < lim -> exists g, field_of_c i g /\
  (forall m v, In (m, v) (create_values_c (f_of_Z i) i) -> exists l e, loc_of m = Some l /\ lookup m (translate default_rule) = Some e /\ fits_type (e_type e) (plain_value m (g l)) /\ convert (e_type e) v = Some (plain_value m (g l))).
Proof.
  intros I. destruct (row_numbers i I) as (z & il & xl & Z1 & _ & _ & E1 & _ & _). exists (create_field i z (2400 + i) (1600 + i)). unfold lim in *. split.
  { split; [apply field_range; unfold lim; lia|]. do 4 (split; [reflexivity|]).
    intros l c [Q|[Q|[Q|[Q|[Q|[Q|[]]]]]]]; injection Q as <- <-; rewrite E1, <- plus_IZR; reflexivity. }
  assert (P40 : 2 ^ 40 = 1099511627776) by reflexivity. assert (P53 : 2 ^ 53 = 9007199254740992) by reflexivity. assert (P64 : 2 ^ 64 = 18446744073709551616) by reflexivity.
  destruct (of_Z_single i ltac:(lia)) as (Fk & Vk). rewrite E1 in Vk. destruct (d_of_F_exact _ Fk) as (Fd & Vd). rewrite Vk in Vd.
  assert (DA : forall c, 0 < c <= 3000000 -> dadd (d_of_Z c) (d_of_F (f_of_Z i)) = d_of_Z (c + z)).
  { intros c C. destruct (d_of_Z_exact c ltac:(lia)) as (Vc & Fc). apply dadd_int; try assumption. lia. }
  intros m v V. unfold create_values_c in V. rewrite !DA in V by lia. rewrite !s64_id in V by (unfold in_s64; lia). clear DA Fk Vk Fd Vd E1.
  destruct V as [V|[V|[V|[V|[V|[V|[V|[V|[V|[]]]]]]]]]]; pose proof (f_equal fst V) as V1; pose proof (f_equal snd V) as V2; clear V; cbn [fst snd] in V1, V2; subst m v;
    (eexists; eexists; split; [reflexivity|]; split; [vm_compute; reflexivity|]); cbn [e_type];
    unfold plain_value, create_field; cbn [Z.eqb Z.leb Z.compare Pos.eqb Pos.compare Pos.compare_cont andb fits_type convert]; try (split; [exact Logic.I|reflexivity]);
    (split; [unfold in_s64; lia|rewrite s64_id by (unfold in_s64; lia); reflexivity]).
Qed.
Lemma fields_unique_c i g g' : field_of_c i g -> field_of_c i g' -> forall l, In l plain_fields -> g l = g' l.
Proof.
  intros (_ & A1 & A2 & A3 & A4 & A5) (_ & B1 & B2 & B3 & B4 & B5) l L.
  assert (C : forall l c, In (l, c) created_coordinates -> g l = g' l) by (intros l' c Q; apply eq_IZR; rewrite <- (A5 l' c Q), <- (B5 l' c Q); reflexivity).
  destruct L as [<-|[<-|[<-|[<-|[<-|[<-|[<-|[<-|[<-|[<-|[]]]]]]]]]]]; try congruence.
  - apply (C 73 1600). cbn. tauto.
  - apply (C 77 2400). cbn. tauto.
  - apply (C 81 100000). cbn. tauto.
  - apply (C 85 3000000). cbn. tauto.
  - apply (C 181 10000). cbn. tauto.
  - apply (C 185 4000). cbn. tauto.
Qed.
Lemma fields_exist_c off n : 0 <= off -> off + n <= lim ->
  exists G : Z -> Z -> Z, forall j, 0 <= j < n -> field_of_c (off + j) (G j) /\
    (forall m v, In (m, v) (create_values_c (f_of_Z (off + j)) (off + j)) -> exists l e, loc_of m = Some l /\ lookup m (translate default_rule) = Some e /\ fits_type (e_type e) (plain_value m (G j l)) /\ convert (e_type e) v = Some (plain_value m (G j l))).
Proof.
  intros O L.
  assert (X : forall k, exists G : Z -> Z -> Z, forall j, 0 <= j < Z.of_nat k -> j < n -> field_of_c (off + j) (G j) /\
    (forall m v, In (m, v) (create_values_c (f_of_Z (off + j)) (off + j)) -> exists l e, loc_of m = Some l /\ lookup m (translate default_rule) = Some e /\ fits_type (e_type e) (plain_value m (G j l)) /\ convert (e_type e) v = Some (plain_value m (G j l)))).
  { induction k as [|k (G & IH)]; [exists (fun _ _ => 0); intros; lia|]. destruct (Z_lt_dec (Z.of_nat k) n) as [LN|LN].
    - destruct (want_exists_c (off + Z.of_nat k) ltac:(lia)) as (g & G1 & G2). exists (fun j => if j =? Z.of_nat k then g else G j). intros j J J'.
      destruct (Z.eqb_spec j (Z.of_nat k)) as [->|D]; [split; assumption|]. apply IH; lia.
    - exists G. intros j J J'. apply IH; lia. }
  destruct (X (Z.to_nat n)) as (G & H). exists G. intros j J. apply H; lia.
Qed.
Lemma params_spec_c off lnt : 0 <= off -> 0 <= lnt -> off + lnt <= lim ->
  exists prm, create_params_c off lnt = Some prm /\ wf_param prm /\ p_rule prm = default_rule /\ p_sz prm = lnt /\
  (forall j g, 0 <= j < lnt -> field_of_c (off + j) g -> holds prm j (plain_header g)).
Proof.
  intros O N L. assert (LT : lim < two64) by (unfold lim, two64; lia).
  destruct (fields_exist_c off lnt O L) as (G & HG).
  set (row := fun j => create_values_c (f_of_Z (u64 (off + j))) (u64 (off + j))).
  assert (RW : forall j, 0 <= j < lnt -> row j = create_values_c (f_of_Z (off + j)) (off + j)) by (intros j J; unfold row; rewrite u64_small by (unfold in_u64; lia); reflexivity).
  set (want := fun j m => match loc_of m with Some l => plain_value m (G j l) | None => VI 0 end).
  destruct (set_rows default_rule row want lnt (newParam default_rule lnt)) as (prm & E & W & R & S & GS & GO).
  - apply newParam_wf; [apply default_good|exact N].
  - reflexivity.
  - cbn [p_sz newParam]. lia.
  - intros j J. unfold row. rewrite values_keys_c. repeat (constructor; [cbn; intuition discriminate|]). constructor.
  - intros j m v J V. rewrite (RW j J) in V. destruct (HG j J) as (_ & H). destruct (H m v V) as (l & e & LO & LK & FT & C). exists e. unfold want. rewrite LO. auto.
  - exists prm. split; [exact E|]. split; [exact W|]. split; [exact R|]. split; [exact S|]. intros j g J FG. destruct (HG j J) as (FJ & _).
    pose proof (fields_unique_c _ _ _ FG FJ) as U. apply plain_holds; [exact R|intros l _; apply FG|]. intros m l LO.
    assert (IL : In l plain_fields /\ (In m [20; 21; 22; 23; 24; 25; 26; 27; 5] \/ m = 14 /\ l = 37)).
    { clear - LO. unfold loc_of in LO. destruct m as [|q|q]; try discriminate.
      repeat (match type of LO with match ?q with _ => _ end = _ => destruct q; try discriminate LO end); injection LO as <-; cbn; intuition lia. }
    destruct IL as (IL & [K|(-> & ->)]).
    + rewrite GS by (exact J || (unfold row; rewrite values_keys_c; exact K)). unfold want. rewrite LO. rewrite (U l IL). reflexivity.
    + rewrite GO; [|exact J|unfold row; rewrite values_keys_c; cbn; intuition discriminate].
      destruct FG as (_ & _ & Q & _). rewrite Q. transitivity (Some (VI 0)); [|reflexivity].
      apply (zero_slot default_rule lnt j 14 (mkEntry MLong 0 37 0)); [apply default_good|exact J|vm_compute; reflexivity|reflexivity].
Qed.

(** The interval of any file is below a second: it becomes zero. *)
Lemma interval_lost inc : fin inc -> (0 <= val inc < 1)%R -> c_interval inc = Some (d_of_Z 0).
Proof.
  intros Fi B. destruct (dtrunc_bound inc Fi) as (n & E & A & _).
  { rewrite Rabs_pos_eq by lra. apply Rle_trans with (bpow radix2 0); [cbn; lra|]. apply bpow_le. lia. }
  rewrite (Rabs_pos_eq (val inc)) in A by lra. assert (Z0 : n = 0).
  { rewrite <- abs_IZR in A. assert (IZR (Z.abs n) < 1)%R by lra. apply lt_IZR in H. lia. }
  subst n. unfold c_interval. rewrite E. reflexivity.
Qed.

(** A history with another interval runs the same. *)
Definition with_inc (d : D) (o : wop) : wop := match o with WInc _ => WInc d | o => o end.
Definition hist_inc (d : D) (h : history) : history := map (fun x => (fst x, with_inc d (snd x))) h.
Lemma rank_ops_inc d h r : rank_ops (hist_inc d h) r = map (with_inc d) (rank_ops h r).
Proof.
  unfold rank_ops, hist_inc. induction h as [|[r' o] h IH]; [reflexivity|]. cbn [map filter fst snd]. destruct (Nat.eqb r' r); cbn [map snd]; rewrite IH; reflexivity.
Qed.
Lemma ns_inc d ops : forall w w', w_ns w = w_ns w' -> w_ns (local (map (with_inc d) ops) w) = w_ns (local ops w').
Proof.
  induction ops as [|o ops IH]; intros w w' E; [exact E|]. cbn [map local fold_left]. apply IH.
  destruct o; cbn [with_inc wlocal]; repeat (match goal with |- context [if ?b then _ else _] => destruct b end); cbn [w_ns]; congruence.
Qed.
Lemma run_inc maxSize d h : forall done f, run_from maxSize (hist_inc d done) (hist_inc d h) f = run_from maxSize done h f.
Proof.
  induction h as [|[r o] h IH]; intros done f; [reflexivity|]. cbn [hist_inc map run_from fst snd].
  assert (E : w_ns (rank_state (hist_inc d done) r) = w_ns (rank_state done r)).
  { unfold rank_state. rewrite rank_ops_inc. apply (ns_inc d (rank_ops done r) w_init w_init). reflexivity. }
  assert (W : wfile maxSize (with_inc d o) (w_ns (rank_state (hist_inc d done) r)) f = wfile maxSize o (w_ns (rank_state done r)) f).
  { rewrite E. destruct o; reflexivity. }
  rewrite W. destruct (wfile maxSize o (w_ns (rank_state done r)) f) as [f1|]; [|reflexivity]. cbn [obind]. rewrite <- IH. f_equal. unfold hist_inc. rewrite map_app. reflexivity.
Qed.

(** Closing after an error in every process does nothing. *)
Lemma close_error maxSize ws f : ws <> [] -> (forall w, In w ws -> w_err w = true) -> close maxSize ws f = Some f.
Proof.
  intros Ne E. unfold close. destruct ws as [|w0 ws]; [contradiction|].
  assert (C : forall w, In w (w0 :: ws) -> close_events (w0 :: ws) w = []) by (intros w I; unfold close_events; rewrite (E w I); reflexivity).
  rewrite (C w0 (or_introl eq_refl)).
  assert (A : forallb (fun w => cevents_eqb (close_events (w0 :: ws) w) []) (w0 :: ws) = true).
  { apply forallb_forall. intros w I. rewrite (C w I). reflexivity. }
  rewrite A. reflexivity.
Qed.
Lemma err_stays ops : forall w, w_err w = true -> w_err (local ops w) = true.
Proof.
  induction ops as [|o ops IH]; intros w E; [exact E|]. cbn [local fold_left]. apply IH.
  destruct o; cbn [wlocal]; repeat (match goal with |- context [if ?b then _ else _] => destruct b end); cbn [w_err]; rewrite ?E; reflexivity.
Qed.

(** A file whose first 3600 bytes are zero. *)
Lemma open_blank maxSize sizes f : 3600 <= maxSize -> 3600 <= fsize f < two64 -> (forall q, 0 <= q < 3600 -> fbyte f q = 0) ->
  exists rd, open_file maxSize sizes f = Some rd /\ r_ns rd = 0 /\ r_nt rd = (fsize f - 3600) / 240 /\ r_format rd = 0.
Proof.
  intros M S Z0. unfold open_file. replace (3600 <=? fsize f) with true by lia. unfold objHO.
  destruct (contig_read_exact f maxSize sizes 0 getHOSz 0 (fun _ => 0) ltac:(lia) ltac:(unfold getHOSz; lia)) as (m & -> & A). cbn [obind].
  assert (B : forall q, 0 <= q < 3600 -> m q = 0). { intros q Q. rewrite A. unfold getHOSz. replace (_ && _) with true by lia. apply Z0. lia. }
  rewrite !B by lia. change (read_ns 0 0) with 0. unfold getNt. change (getDOSz 0) with 240. change (240 =? 0) with false. cbn [obind].
  eexists. split; [reflexivity|]. cbn [r_ns r_nt r_format r_text]. split; [reflexivity|]. split; [|reflexivity].
  rewrite u64_small; [reflexivity|]. unfold in_u64, getHOSz in *. lia.
Qed.
