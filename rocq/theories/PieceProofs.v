(** Histories whose calls write samples, headers or both. *)
From Coq Require Import Reals Lra.
From Flocq Require Import Core IEEE754.BinarySingleNaN.
From Verif Require Import Base DecompModel DecompSpec DecompProofs NumEncModel NumEncSpec NumEncProofs CharEncModel CharEncProofs LayoutModel LayoutProofs DataIOModel DataIOProofs
  RuleModel RuleProofs DoubleModel ParamModel ParamProofs HeaderProofs ScalarProofs FileSpec FileModel FileProofs WriteSpec WriteProofs ParamProperties ReadProofs OpenProofs FileProperties TraceProperties.
From Verif Require Import CopySpec CopyProofs ExampleModel ExampleProofs.
Import ListNotations.
Open Scope Z_scope.

(** For every trace it writes, the samples (if any) are those of [smp] and the metadata (if
    any) those of the header [hdr]. *)
Definition call_pieces (smp : Z -> Z -> Z) (hdr : Z -> mem) (ns : Z) (rl : rule) (o : wop) : Prop :=
  match o with
  | WTrace _ t trc prm skip =>
    (forall m, trc = Some m -> forall j k, 0 <= j < tcount t -> 0 <= k < ns -> sample m (j * ns + k) = smp (tpos t j) k) /\
    (forall p, prm = Some p -> wf_param p /\ p_rule p = rl /\ 0 <= skip /\ skip + tcount t <= p_sz p /\
       forall j, 0 <= j < tcount t -> holds p (j + skip) (hdr (tpos t j)))
  | _ => True
  end.
Lemma history_pieces_samples maxSize p h f0 f' nt ns smp hdr rl :
  written_file maxSize p h f0 f' nt ns -> (forall x, In x h -> call_pieces smp hdr ns rl (snd x)) ->
  forall b, (exists r sizes t m prm skip j, In (r, WTrace sizes t (Some m) prm skip) h /\ 0 <= j < tcount t /\ tpos t j = b) ->
  forall k, 0 <= k < ns -> disk_sample f' ns b k = smp b k.
Proof.
  intros W CC b (r & sizes & t & m0 & prm & skip & j & I & J & E). destruct (life_samples _ _ _ _ _ _ _ W) as (L1 & _).
  destruct (last_samples ns h b) as [s|] eqn:LS.
  - destruct (L1 b s LS) as (_ & D). intros k K. rewrite D by exact K.
    apply (last_in (fun o => written ns o b)) in LS. destruct LS as [LS|(r' & o' & I' & G)]; [discriminate|].
    specialize (CC _ I'). cbn [snd] in CC. destruct o' as [| | | |sz' t' [m'|] prm' skip']; cbn [written] in G; try discriminate.
    destruct (find_pos t' b) as [j'|] eqn:FP; [|discriminate]. cbn [option_map] in G. injection G as <-. apply find_pos_some in FP. destruct FP as (J' & E').
    cbn [call_pieces] in CC. destruct CC as (CC & _). rewrite (CC m' eq_refl j' k J' K), E'. reflexivity.
  - exfalso. apply (last_some (fun o => written ns o b) h None) in LS; [exact LS|]. right. exists r, (WTrace sizes t (Some m0) prm skip). split; [exact I|].
    cbn [written]. pose proof (find_pos_of t b j J E). destruct (find_pos t b); [discriminate|contradiction].
Qed.
Lemma history_pieces_headers maxSize p h f0 f' nt ns smp hdr rl :
  written_file maxSize p h f0 f' nt ns -> usable rl -> counts rl MCopy = 0 ->
  (forall x, In x h -> call_pieces smp hdr ns rl (snd x)) -> (forall b, mem_bytes (hdr b)) ->
  forall b, (exists r sizes t trc q skip j, In (r, WTrace sizes t trc (Some q) skip) h /\ 0 <= j < tcount t /\ tpos t j = b) ->
  (forall m e, lookup m (translate rl) = Some e -> e_type e = MLong -> int32_at (disk_header f' ns b) (e_loc e) = int32_at (hdr b) (e_loc e)) /\
  (forall m e, lookup m (translate rl) = Some e -> e_type e = MShort -> int16_at (disk_header f' ns b) (e_loc e) = int16_at (hdr b) (e_loc e)) /\
  (forall m e, lookup m (translate rl) = Some e -> e_type e = MFloat -> plain_scale (int16_at (hdr b) (e_scal e)) ->
     plain_scale (int16_at (disk_header f' ns b) (e_scal e)) /\
     coordinate (disk_header f' ns b) (e_loc e) (e_scal e) = coordinate (hdr b) (e_loc e) (e_scal e)).
Proof.
  intros W (FR & FO) NC CC FB b (r & sizes & t & trc & p0 & skip & j & I & J & E). destruct (life_samples _ _ _ _ _ _ _ W) as (_ & _ & _ & L4 & _).
  assert (MD : forall x, In x h -> md_ok (snd x)).
  { intros x X. specialize (CC x X). destruct (snd x) as [| | | |sz' t' trc' [p'|] skip']; cbn [md_ok call_pieces] in *; try exact Logic.I.
    destruct CC as (_ & CC). destruct (CC p' eq_refl) as (A1 & A2 & A3 & A4 & _). rewrite A2. auto. }
  destruct (last_md h b) as [(p', tr)|] eqn:LM.
  - destruct (L4 b p' tr LM MD) as (_ & st & sz & sk & jj & buf & Q1 & Q2 & Q3 & Q4 & Q5 & Q6 & Q7 & Q8 & Q9 & Q10).
    assert (HB : p_rule p' = rl /\ holds p' (jj + sk) (hdr b)).
    { rewrite Q5. apply (last_in (fun o => written_md o b)) in LM. destruct LM as [LM|(r' & o' & I' & G)]; [discriminate|].
      specialize (CC _ I'). cbn [snd] in CC. destruct o' as [| | | |sz' t' trc' [p''|] skip']; cbn [written_md] in G; try discriminate.
      destruct (find_pos t' b) as [j'|] eqn:FP; [|discriminate]. cbn [option_map] in G. injection G as -> <-. apply find_pos_some in FP. destruct FP as (J' & E').
      cbn [call_pieces] in CC. destruct CC as (_ & CC). destruct (CC p' eq_refl) as (_ & A2 & _ & _ & CC'). specialize (CC' j' J'). rewrite E' in CC'. split; [exact A2|exact CC']. }
    destruct HB as (RL & HD). pose proof (header_copied sz p' st sk buf jj (hdr b) Q6 (conj Q7 Q8) Q1 Q3 Q4 Q2 Q9 HD) as HC. cbv zeta in HC. rewrite RL in *.
    assert (BB : mem_bytes buf) by (apply (insert_byte sz p' st sk); [rewrite RL; exact NC|exact Q9]).
    assert (FH : forall x, is_byte (hdr b x)) by (intros x; apply FB).
    assert (R32 : forall l, 1 <= l <= 237 -> int32_at (disk_header f' ns b) l = rd32 buf ((240 + st) * jj + (l - 1))).
    { intros l Hl. rewrite int32_rd by (intros k K; rewrite Q10 by lia; apply BB). apply rd32_shift. intros k K. rewrite Q10 by lia. f_equal. lia. }
    assert (R16 : forall l, 1 <= l <= 239 -> int16_at (disk_header f' ns b) l = rd16 buf ((240 + st) * jj + (l - 1))).
    { intros l Hl. rewrite int16_rd by (rewrite Q10 by lia; apply BB). unfold rd16. rewrite !Q10 by lia. f_equal; f_equal; lia. }
    split; [|split].
    + intros m e LK T. destruct (FO m e (e_loc e, 4) (ReadProofs.lookup_in _ _ _ LK)) as (B1 & B2 & _); [unfold efields; rewrite T; left; reflexivity|]. cbn [fst snd] in *.
      rewrite R32 by lia. rewrite (proj1 (HC m e LK) T). rewrite int32_rd by (intros; apply FH). reflexivity.
    + intros m e LK T. destruct (FO m e (e_loc e, 2) (ReadProofs.lookup_in _ _ _ LK)) as (B1 & B2 & _); [unfold efields; rewrite T; left; reflexivity|]. cbn [fst snd] in *.
      rewrite R16 by lia. rewrite (proj1 (proj2 (HC m e LK)) T). rewrite int16_rd by (intros; apply FH). reflexivity.
    + intros m e LK T PS. destruct (FO m e (e_loc e, 4) (ReadProofs.lookup_in _ _ _ LK)) as (B1 & B2 & _); [unfold efields; rewrite T; left; reflexivity|].
      destruct (FO m e (e_scal e, 2) (ReadProofs.lookup_in _ _ _ LK)) as (B3 & B4 & _); [unfold efields; rewrite T; right; left; reflexivity|]. cbn [fst snd] in *.
      unfold coordinate. rewrite R32, R16 by lia. rewrite int16_rd in * by (intros; apply FH). rewrite int32_rd by (intros; apply FH). apply (proj2 (proj2 (HC m e LK)) T PS).
  - exfalso. apply (last_some (fun o => written_md o b) h None) in LM; [exact LM|]. right. exists r, (WTrace sizes t trc (Some p0) skip). split; [exact I|].
    cbn [written_md]. pose proof (find_pos_of t b j J E). destruct (find_pos t b); [discriminate|contradiction].
Qed.

(** ---- setting several entries of a trace ---- *)
Lemma set_converted p i m v w e : lookup m (translate (p_rule p)) = Some e -> convert (e_type e) v = Some w -> fits_type (e_type e) w -> setPrm i m v p = setPrm i m w p.
Proof. intros L C F. unfold setPrm, getEntry. rewrite L. pose proof (convert_own _ _ F) as C'. destruct (e_type e); rewrite ?C, ?C'; try reflexivity. Qed.
Lemma set_list rl i g : forall l p, wf_param p -> p_rule p = rl -> 0 <= i < p_sz p -> NoDup (map fst l) ->
  (forall m v, In (m, v) l -> exists e, lookup m (translate rl) = Some e /\ fits_type (e_type e) (g m) /\ convert (e_type e) v = Some (g m)) ->
  exists p', fold_left (fun op (x : Z * value) => obind op (setPrm i (fst x) (snd x))) l (Some p) = Some p' /\ wf_param p' /\ p_rule p' = rl /\ p_sz p' = p_sz p /\
  (forall m, In m (map fst l) -> getPrm i m p' = Some (g m)) /\
  (forall i' m', 0 <= i' < p_sz p -> i' <> i \/ ~ In m' (map fst l) -> getPrm i' m' p' = getPrm i' m' p).
Proof.
  induction l as [|(m, v) l IH]; intros p W R I ND H.
  - exists p. cbn. split; [reflexivity|]. repeat (split; [assumption || reflexivity|]). split; [intros m []|auto].
  - cbn [fold_left fst snd obind]. destruct (H m v (or_introl eq_refl)) as (e & L & FT & C). rewrite (set_converted p i m v (g m) e) by (rewrite ?R; assumption).
    destruct (set_get p i m (g m) e W ltac:(rewrite R; exact L) I FT) as (p1 & E1 & R1 & W1 & S1 & G1 & O1). rewrite E1. inversion ND as [|x xs NI ND']. subst x xs.
    destruct (IH p1 W1 ltac:(congruence) ltac:(lia) ND') as (p2 & E2 & W2 & R2 & S2 & G2 & O2).
    { intros m' v' I'. apply H. right. exact I'. }
    exists p2. split; [exact E2|]. split; [exact W2|]. split; [exact R2|]. split; [lia|]. split.
    + intros m' [M|M]; [cbn [fst] in M; subst m'|apply G2; exact M]. rewrite O2 by (lia || (right; exact NI)). exact G1.
    + intros i' m' I' N. rewrite O2; [apply O1; [exact I'|]|lia|].
      * intros Q. injection Q as -> ->. destruct N as [N|N]; [apply N; reflexivity|apply N; left; reflexivity].
      * destruct N as [N|N]; [left; exact N|right; intros Q; apply N; right; exact Q].
Qed.
(** The same for all the traces of a block. *)
Lemma set_rows rl (row : Z -> list (Z * value)) (g : Z -> Z -> value) n p : wf_param p -> p_rule p = rl -> 0 <= n <= p_sz p ->
  (forall i, 0 <= i < n -> NoDup (map fst (row i))) ->
  (forall i m v, 0 <= i < n -> In (m, v) (row i) -> exists e, lookup m (translate rl) = Some e /\ fits_type (e_type e) (g i m) /\ convert (e_type e) v = Some (g i m)) ->
  exists p', fold_left (fun op i => obind op (fun p => fold_left (fun op (x : Z * value) => obind op (setPrm i (fst x) (snd x))) (row i) (Some p))) (zr n) (Some p) = Some p' /\
  wf_param p' /\ p_rule p' = rl /\ p_sz p' = p_sz p /\
  (forall i m, 0 <= i < n -> In m (map fst (row i)) -> getPrm i m p' = Some (g i m)) /\
  (forall i m, 0 <= i < n -> ~ In m (map fst (row i)) -> getPrm i m p' = getPrm i m p).
Proof.
  intros W R N ND H.
  assert (X : forall js p, wf_param p -> p_rule p = rl -> n <= p_sz p -> NoDup js -> (forall j, In j js -> 0 <= j < n) ->
    exists p', fold_left (fun op i => obind op (fun p => fold_left (fun op (x : Z * value) => obind op (setPrm i (fst x) (snd x))) (row i) (Some p))) js (Some p) = Some p' /\
    wf_param p' /\ p_rule p' = rl /\ p_sz p' = p_sz p /\
    (forall i m, 0 <= i < n -> In i js -> In m (map fst (row i)) -> getPrm i m p' = Some (g i m)) /\
    (forall i m, 0 <= i < n -> ~ In i js \/ ~ In m (map fst (row i)) -> getPrm i m p' = getPrm i m p)).
  { induction js as [|j js IH]; intros q Wq Rq Nq NDj Hj.
    - exists q. cbn. split; [reflexivity|]. repeat (split; [assumption || reflexivity|]). split; [intros i m _ []|auto].
    - cbn [fold_left obind]. pose proof (Hj j (or_introl eq_refl)) as J. inversion NDj as [|x xs NI NDj']. subst x xs.
      destruct (set_list rl j (g j) (row j) q Wq Rq ltac:(lia) (ND j J) ltac:(intros m v; apply H; exact J)) as (q1 & E1 & W1 & R1 & S1 & G1 & O1). rewrite E1.
      destruct (IH q1 W1 R1 ltac:(lia) NDj' ltac:(intros; apply Hj; right; assumption)) as (q2 & E2 & W2 & R2 & S2 & G2 & O2).
      exists q2. split; [exact E2|]. split; [exact W2|]. split; [exact R2|]. split; [lia|]. split.
      + intros i m I [Q|Q] M; [subst i|apply G2; assumption]. rewrite O2 by (assumption || (left; exact NI)). apply G1. exact M.
      + intros i m I Q. rewrite O2; [|exact I|].
        * apply O1; [lia|]. destruct Q as [Q|Q]; [left; intros ->; apply Q; left; reflexivity|]. destruct (Z.eq_dec i j) as [->|]; [right; exact Q|left; assumption].
        * destruct Q as [Q|Q]; [left; intros Y; apply Q; right; exact Y|right; exact Q]. }
  destruct (X (zr n) p W R ltac:(lia) (nodup_zrange (Z.to_nat n)) ltac:(intros j J; apply in_zr in J; lia)) as (p' & E & W' & R' & S' & G & O).
  exists p'. split; [exact E|]. split; [exact W'|]. split; [exact R'|]. split; [exact S'|]. split.
  - intros i m I M. apply G; [exact I|apply in_zr; exact I|exact M].
  - intros i m I M. apply O; [exact I|right; exact M].
Qed.

(** ---- a header of integers and coordinates with the scale factor 1 ---- *)
Definition plain_fields : list Z := [5; 37; 73; 77; 81; 85; 181; 185; 189; 193].
Definition plain_header (g : Z -> Z) : mem := fun x =>
  if x =? 71 then 1 else
  match find (fun l => (l - 1 <=? x) && (x <? l + 3)) plain_fields with
  | Some l => nth (Z.to_nat (x - (l - 1))) (to_big_endian 4 (g l)) 0
  | None => 0
  end.
Lemma plain_bytes g : mem_bytes (plain_header g).
Proof.
  intros x. unfold plain_header. destruct (x =? 71); [unfold is_byte; lia|]. destruct (find _ _) as [l|]; [|unfold is_byte; lia].
  destruct (to_be_bytes 4 (g l)) as (B & L). destruct (Nat.lt_ge_cases (Z.to_nat (x - (l - 1))) 4) as [Q|Q].
  - rewrite Forall_forall in B. apply B, nth_In. rewrite L. exact Q.
  - rewrite nth_overflow by (rewrite L; exact Q). unfold is_byte. lia.
Qed.
Lemma plain_rd32 g l : In l plain_fields -> in_s32 (g l) -> rd32 (plain_header g) (l - 1) = g l.
Proof.
  intros I S. rewrite <- (s32_id (g l) S) at 1. rewrite <- dec32_be.
  assert (E : forall k, (k < 4)%nat -> plain_header g (l - 1 + Z.of_nat k) = nth k (to_big_endian 4 (g l)) 0).
  { intros k K. destruct I as [<-|[<-|[<-|[<-|[<-|[<-|[<-|[<-|[<-|[<-|[]]]]]]]]]]]; destruct k as [|[|[|[|k]]]]; try lia; reflexivity. }
  destruct (to_be_bytes 4 (g l)) as (_ & L). destruct (to_big_endian 4 (g l)) as [|b0 [|b1 [|b2 [|b3 [|b4 t]]]]]; try discriminate L.
  pose proof (E 0%nat ltac:(lia)) as E0. pose proof (E 1%nat ltac:(lia)) as E1. pose proof (E 2%nat ltac:(lia)) as E2. pose proof (E 3%nat ltac:(lia)) as E3.
  cbn [nth] in *. change (Z.of_nat 0) with 0 in E0. change (Z.of_nat 1) with 1 in E1. change (Z.of_nat 2) with 2 in E2. change (Z.of_nat 3) with 3 in E3. rewrite Z.add_0_r in E0.
  unfold rd32. rewrite E0, E1, E2, E3. reflexivity.
Qed.
Lemma plain_scal g : rd16 (plain_header g) 70 = 1.
Proof. reflexivity. Qed.
Definition loc_of (m : Z) : option Z :=
  match m with 5 => Some 5 | 14 => Some 37 | 20 => Some 73 | 21 => Some 77 | 22 => Some 81 | 23 => Some 85 | 24 => Some 181 | 25 => Some 185 | 26 => Some 189 | 27 => Some 193 | _ => None end.
Definition plain_value (m z : Z) : value := if (20 <=? m) && (m <=? 25) then VF (d_of_Z z) else VI z.
Lemma plain_holds p tr g : p_rule p = default_rule -> (forall l, In l plain_fields -> in_s32 (g l)) ->
  (forall m l, loc_of m = Some l -> getPrm tr m p = Some (plain_value m (g l))) -> holds p tr (plain_header g).
Proof.
  intros R S H m e v L D. rewrite R in L. apply ReadProofs.lookup_in in L.
  assert (X : In (m, e) (translate default_rule)) by exact L. clear L R.
  let t := eval vm_compute in (translate default_rule) in assert (T : translate default_rule = t) by (vm_compute; reflexivity).
  rewrite T in X. clear T.
  assert (I1 : forall l, In l plain_fields -> v = VI (rd32 (plain_header g) (l - 1)) -> v = VI (g l)) by (intros l I ->; rewrite plain_rd32 by auto; reflexivity).
  assert (I2 : forall l, In l plain_fields -> v = VF (dmul (parse_scalar (rd16 (plain_header g) 70)) (d_of_Z (rd32 (plain_header g) (l - 1)))) -> v = VF (d_of_Z (g l))).
  { intros l I ->. rewrite plain_rd32 by auto. rewrite plain_scal. f_equal. apply int_round_trip. auto. }
  assert (ON : forall l, loc_of m = Some l -> plain_value m (g l) = v -> getPrm tr m p = Some v) by (intros l Q <-; apply H; exact Q).
  unfold decode in D. cbn [In] in X.
  repeat (destruct X as [X|X]; [injection X as <- <-; cbn [e_type e_loc e_scal] in D; try discriminate D; apply (f_equal (fun o => match o with Some y => y | None => v end)) in D; symmetry in D;
    (eapply ON; [reflexivity|]; symmetry; first [apply I1; [cbn; tauto|exact D]|apply I2; [cbn; tauto|exact D]])|]).
  destruct X.
Qed.
