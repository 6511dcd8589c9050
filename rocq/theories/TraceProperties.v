(** Properties C09, C39 and C42 to C49, C78: the traces of files. *)
From Coq Require Import Reals Lra Permutation Sorted.
From Flocq Require Import Core IEEE754.BinarySingleNaN.
From Verif Require Import Base NumEncModel NumEncSpec NumEncProofs CharEncModel LayoutModel LayoutProofs DataIOModel DataIOProofs
  RuleModel RuleProofs DoubleModel ParamModel ParamProofs HeaderProofs ScalarProofs FileSpec FileModel FileProofs WriteSpec WriteProofs ParamProperties ReadProofs OpenProofs FileProperties.
Open Scope Z_scope.

(** ---- C39: what the closing rules need ---- *)
(** An announcement after the writes cuts the file: two traces written, size of one. *)
Theorem C39_late_announcement_refuted :
  exists h f', write_file 4000 1 h empty_file = Some f' /\
  In (0%nat, WTrace [] (Range 0 2) (Some (demo_mem 3)) None 0) h /\ w_err (rank_state h 0) = false /\ fsize f' = 3600 + 1 * (240 + 4 * 1).
Proof.
  set (h := [(0%nat, WNs 1); (0%nat, WTrace [] (Range 0 2) (Some (demo_mem 3)) None 0); (0%nat, WNt 1)]).
  assert (H : option_map fsize (write_file 4000 1 h empty_file) = Some 3844) by (vm_compute; reflexivity).
  destruct (write_file 4000 1 h empty_file) as [f'|] eqn:E; [|discriminate]. exists h, f'. split; [exact E|].
  split; [right; left; reflexivity|]. split; [reflexivity|]. injection H as ->. reflexivity.
Qed.
Print Assumptions C39_late_announcement_refuted.
(** When one rank writes and another only announces, the collective calls of
    closing do not match. *)
Theorem C39_idle_rank_refuted :
  exists h f, run 4000 h empty_file = Some f /\ (forall r, w_err (rank_state h r) = false) /\
  close 4000 (ranks h 2) f = None.
Proof.
  set (h := [(0%nat, WNs 1); (1%nat, WNs 1); (0%nat, WTrace [] (Range 0 1) (Some (demo_mem 3)) None 0); (1%nat, WNt 1)]).
  assert (H : obind (run 4000 h empty_file) (fun f => match close 4000 (ranks h 2) f with None => Some tt | _ => None end) = Some tt) by (vm_compute; reflexivity).
  destruct (run 4000 h empty_file) as [f|] eqn:E; [|discriminate]. exists h, f. split; [exact E|]. split.
  - intros r. destruct r as [|[|r]]; reflexivity.
  - cbn [obind] in H. destruct (close _ _ _); [discriminate|reflexivity].
Qed.
Print Assumptions C39_idle_rank_refuted.

(** ---- C42: traces written are the traces read ---- *)
(** The parameter sets a read accepts. *)
Definition readable (t : target) (skip : Z) (prm : option param) : Prop :=
  forall p, prm = Some p -> held p /\ usable (p_rule p) /\ labelled p /\ 0 <= skip /\ skip + tcount t <= p_sz p.

Lemma life_samples maxSize p h f0 f' nt ns : written_file maxSize p h f0 f' nt ns ->
  (forall i s, last_samples ns h i = Some s -> 0 <= i < asked_by_all h p /\ forall k, 0 <= k < ns -> disk_sample f' ns i k = s k) /\
  (forall i, 0 <= i < asked_by_all h p -> last_samples ns h i = None -> trace_at ns i + 240 + 4 * ns <= fsize f0 ->
     forall k, 0 <= k < ns -> disk_sample f' ns i k = disk_sample f0 ns i k) /\
  (forall i j, 0 <= i < asked_by_all h p -> 0 <= j < 4 * ns -> is_byte (fbyte f' (trace_at ns i + 240 + j))) /\
  (forall i p' tr, last_md h i = Some (p', tr) -> (forall x, In x h -> md_ok (snd x)) ->
     0 <= i < asked_by_all h p /\
     exists stride sz sk j buf, 0 <= stride /\ 0 <= j < sz /\ 0 <= sk /\ sk + sz <= p_sz p' /\ j + sk = tr /\
     wf_param p' /\ full_rule (p_rule p') /\ fields_ok (p_rule p') /\
     insertParam sz p' (fun _ => 0) stride sk = Some buf /\
     (forall x, 0 <= x < 240 -> disk_header f' ns i x = buf ((240 + stride) * j + x))) /\
  has_traces f' (asked_by_all h p) ns.
Proof.
  intros W. destruct (life _ _ _ _ _ _ _ W) as (f & hd & k & RUN & FA & NS & NS0 & AL & _ & K & SZ & B1 & B2 & _).
  destruct W as [P (M & M2) F FB RK WB AW OK _ _].
  destruct (run_content _ _ _ _ _ _ M2 F OK RUN) as (C1 & C2 & C3 & C4 & C5 & C6).
  assert (IN : forall i j, 0 <= i < asked_by_all h p -> 0 <= j < 4 * ns -> 3600 <= trace_at ns i + 240 + j < fsize f').
  { intros i j I J. rewrite SZ. rewrite <- Z.add_assoc. apply trace_inside; lia. }
  split; [|split; [|split; [|split]]].
  - intros i s L. pose proof (last_samples_below nt ns h p i s RK OK L) as I. split; [exact I|]. intros k0 K0. destruct (C1 i s L) as (A & B).
    rewrite <- (A k0 K0). apply disk_sample_ext; [|exact K0]. intros j J. rewrite B2 by (apply IN; assumption).
    replace (_ <? _) with true by (specialize (B ltac:(lia)); lia). reflexivity.
  - intros i I L SF k0 K0. apply disk_sample_ext; [|exact K0]. intros j J. rewrite B2 by (apply IN; assumption).
    replace (_ <? _) with true by lia. apply C2; assumption.
  - intros i j I J. rewrite B2 by (apply IN; assumption). destruct (_ <? _); [apply C6; assumption|unfold is_byte; lia].
  - intros i p' tr L MD. pose proof (last_md_below nt ns h p i _ RK OK L) as I. split; [exact I|].
    destruct (run_headers _ _ _ _ _ _ M2 F OK RUN i p' tr L MD) as (st & sz & sk & j & buf & Q1 & Q2 & Q3 & Q4 & Q5 & Q6 & Q7 & Q8 & Q9 & Q10 & Q11).
    exists st, sz, sk, j, buf. repeat (split; [assumption|]). intros x X. rewrite <- Q10 by exact X. unfold disk_header.
    rewrite B2 by (rewrite SZ; apply trace_inside; lia). replace (_ <? _) with true by lia. reflexivity.
  - unfold has_traces. lia.
Qed.

(** After close, whatever a reader asks for - any range or list of traces, with or
    without metadata, with any settings of the I/O - it gets for every trace the
    last samples any rank wrote there, and every such trace is in the file. *)
Theorem C42_traces_round_trip :
  forall maxSize p h f0 f' nt ns maxSize' sizes rd t trc prm skip,
  written_file maxSize p h f0 f' nt ns -> 3600 <= maxSize' -> 2 * (240 + 4 * ns) <= maxSize' ->
  open_file maxSize' sizes f' = Some rd ->
  tvalid (r_nt rd) t -> readable t skip prm ->
  (forall i s, last_samples ns h i = Some s -> 0 <= i < r_nt rd) /\
  exists trc' prm', readTraceT maxSize' sizes (r_format rd) (r_ns rd) t (Some trc) prm skip f' = Some (Some trc', prm') /\
  (forall j s, 0 <= j < tcount t -> last_samples ns h (tpos t j) = Some s -> forall k, 0 <= k < ns -> sample trc' (j * ns + k) = s k) /\
  (forall j, 0 <= j < tcount t -> last_samples ns h (tpos t j) = None -> trace_at ns (tpos t j) + 240 + 4 * ns <= fsize f0 ->
     forall k, 0 <= k < ns -> sample trc' (j * ns + k) = disk_sample f0 ns (tpos t j) k) /\
  (forall a, a < 0 \/ 4 * (ns * tcount t) <= a -> trc' a = trc a).
Proof.
  intros maxSize p h f0 f' nt ns maxSize' sizes rd t trc prm skip W M M2 O V HP.
  destruct (C40_header_round_trip_partial _ _ _ _ _ _ _ maxSize' sizes W M) as (rd' & O' & E1 & E2 & E3 & _).
  rewrite O in O'. injection O' as <-. rewrite E1, E2, E3 in *.
  destruct (life_samples _ _ _ _ _ _ _ W) as (L1 & L2 & L3 & _ & HT).
  destruct (life _ _ _ _ _ _ _ W) as (f & hd & k & RUN & FA & _).
  split; [intros i s L; apply (L1 i s L)|].
  destruct (read_spec maxSize' sizes 5 ns _ t (Some trc) prm skip f' M2 FA V HT) as (trc' & prm' & R & _ & A & _).
  - intros i j I J. apply L3; [apply (tpos_range _ t i V I)|exact J].
  - discriminate.
  - left. discriminate.
  - intros q Q. destruct (HP q Q) as (H1 & (H2 & H3) & H4 & H5 & H6). split; [apply held_wf; exact H1|]. repeat (split; [assumption|]). assumption.
  - destruct (A trc eq_refl) as (m' & -> & S & U). exists m', prm'. split; [exact R|]. split; [|split; [|exact U]].
    + intros j s J L k0 K0. rewrite S by assumption. apply (L1 _ s L). exact K0.
    + intros j J L SF k0 K0. rewrite S by assumption. apply L2; try assumption. apply (tpos_range _ t j V J).
Qed.
Print Assumptions C42_traces_round_trip.
Example C42_nonvacuous : exists f' rd s, written_file 4000 2 (demo us_250) empty_file f' 3 2 /\ open_file 4000 [] f' = Some rd /\
  tvalid (r_nt rd) (Listed [2; 0; 2]) /\ last_samples 2 (demo us_250) 0 = Some s /\ s 1 = sample (demo_mem 50) 1 /\ readable (Listed [2; 0; 2]) 0 None.
Proof.
  destruct C39_nonvacuous as (f' & W & A). destruct (C40_header_round_trip_partial _ _ _ _ _ _ _ 4000 [] W ltac:(lia)) as (rd & O & _ & E & _).
  exists f', rd. eexists. split; [exact W|]. split; [exact O|]. rewrite E, A. split; [repeat constructor; lia|]. split; [reflexivity|]. split; [reflexivity|intros ? ?; discriminate].
Qed.

(** ---- C43: the caller's samples are the same after the call ---- *)
Theorem C43_caller_samples_kept :
  forall maxSize sizes ns nt t m prm skip f f' trc',
  2 * (240 + 4 * ns) <= maxSize -> fits nt ns -> in_file nt t -> mem_bytes m ->
  writeTraceT maxSize sizes ns t (Some m) prm skip f = Some (f', trc') ->
  exists m', trc' = Some m' /\ forall a, m' a = m a.
Proof.
  intros maxSize sizes ns nt t m prm skip f f' trc' M F V B H. apply in_file_valid in V. destruct V as (V & D).
  assert (B' : forall m0, Some m = Some m0 -> mem_bytes m0) by (intros m0 Q; injection Q as <-; exact B).
  destruct (write_spec _ _ _ _ _ _ _ _ _ _ _ M F V D B' H) as (_ & _ & _ & _ & _ & _ & _ & A & _).
  apply A. reflexivity.
Qed.
Print Assumptions C43_caller_samples_kept.
Example C43_nonvacuous : fits 3 2 /\ in_file 3 (Range 0 2) /\ mem_bytes (demo_mem 3) /\
  (exists x, writeTraceT 4000 [] 2 (Range 0 2) (Some (demo_mem 3)) None 0 empty_file = Some x) /\
  to_disk 4 (demo_mem 3) 0 <> demo_mem 3 0.
Proof.
  split; [unfold fits, two64; lia|]. split; [cbn; lia|]. split; [apply demo_bytes|]. split; [eexists; reflexivity|vm_compute; discriminate].
Qed.

(** ---- C44: reads past the end ---- *)
(** A range that starts inside the file (or at its end) is cut at the end: exactly
    the traces that exist are read, and nothing else of the memory changes. *)
Theorem C44_clamped_partial :
  forall maxSize sizes rd nt ns f offset sz trc,
  2 * (240 + 4 * ns) <= maxSize -> fits nt ns -> has_traces f nt ns -> file_bytes f ->
  r_ns rd = ns -> r_nt rd = nt -> r_format rd <> 1 ->
  0 <= offset <= nt -> 0 <= sz -> offset + sz < two64 ->
  let n := Z.min (offset + sz) nt - offset in
  exists trc', readTrace maxSize sizes rd offset sz (Some trc) None 0 f = Some (Some trc', None) /\
  (forall i k, 0 <= i < n -> 0 <= k < ns -> sample trc' (i * ns + k) = disk_sample f ns (offset + i) k) /\
  (forall a, a < 0 \/ 4 * (ns * n) <= a -> trc' a = trc a).
Proof.
  intros maxSize sizes rd nt ns f offset sz trc M F HT FB E1 E2 E3 O S W n. unfold readTrace. rewrite E1, E2.
  assert (C : clamp nt offset sz = n).
  { unfold clamp, n. rewrite (u64_small (offset + sz)) by lia. destruct (Z.eqb_spec sz 0); [lia|]. destruct (Z.ltb_spec nt (offset + sz)); [|lia].
    rewrite u64_small by lia. lia. }
  rewrite C. destruct (read_spec maxSize sizes (r_format rd) ns nt (Range offset n) (Some trc) None 0 f M F) as (t' & p' & R & _ & A & B & _).
  - cbn. unfold n. lia.
  - exact HT.
  - intros; apply FB.
  - exact E3.
  - left; discriminate.
  - discriminate.
  - rewrite (B eq_refl) in R. destruct (A trc eq_refl) as (m' & -> & X & Y). exists m'. split; [exact R|]. split; [exact X|exact Y].
Qed.
Print Assumptions C44_clamped_partial.
Example C44_nonvacuous : let f := mkFile (3600 + 2 * 244) (fun q => q mod 256) in
  fits 2 1 /\ has_traces f 2 1 /\ file_bytes f /\ clamp 2 1 7 = 1 /\
  exists m, readTrace 4000 [] (mkR 1 2 (d_of_Z 0) 5 []) 1 7 (Some (fun _ => 0)) None 0 f = Some (Some m, None).
Proof.
  cbv zeta. split; [unfold fits, two64; lia|]. split; [unfold has_traces, trace_at; cbn; lia|]. split; [intros q; apply Z.mod_pos_bound; lia|].
  split; [reflexivity|eexists; reflexivity].
Qed.
(** A range that starts beyond the end asks for almost 2^64 traces. *)
Theorem C44_start_beyond_end_refuted : exists nt offset sz, nt < offset /\ 0 < sz /\ clamp nt offset sz = two64 - 2.
Proof. exists 1, 3, 1. split; [lia|]. split; [lia|reflexivity]. Qed.
Print Assumptions C44_start_beyond_end_refuted.

(** ---- C49: labels ---- *)
(** After any successful kind of read with metadata - range or list - entry i's
    local trace number is the position in the file. *)
Theorem C49_labels :
  forall maxSize sizes fmt ns nt t trc p skip f,
  2 * (240 + 4 * ns) <= maxSize -> fits nt ns -> tvalid nt t -> has_traces f nt ns -> file_bytes f -> fmt <> 1 ->
  readable t skip (Some p) ->
  exists trc' p', readTraceT maxSize sizes fmt ns t trc (Some p) skip f = Some (trc', Some p') /\
  (forall i, 0 <= i < tcount t -> getPrm (i + skip) 1 p' = Some (VI (tpos t i))).
Proof.
  intros maxSize sizes fmt ns nt t trc p skip f M F V HT FB FM HP. destruct (HP p eq_refl) as (H1 & (H2 & H3) & H4 & H5 & H6).
  destruct (read_spec maxSize sizes fmt ns nt t trc (Some p) skip f M F V HT) as (trc' & prm' & R & _ & _ & _ & A).
  - intros; apply FB.
  - exact FM.
  - right. discriminate.
  - intros q Q. injection Q as <-. split; [apply held_wf; exact H1|]. repeat (split; [assumption|]). assumption.
  - destruct (A p eq_refl) as (p' & -> & _ & _ & _ & _ & L & _). exists trc', p'. split; [exact R|exact L].
Qed.
Print Assumptions C49_labels.
Definition demo_rule : rule := newRule [] true true true.
Lemma demo_param sz : 0 <= sz -> held (newParam demo_rule sz) /\ usable (p_rule (newParam demo_rule sz)) /\ labelled (newParam demo_rule sz).
Proof.
  intros S. split; [apply held_new; [apply predefined_reachable, pre_new|exact S]|]. split; [apply predefined_usable, pre_new|].
  assert (G : forall r, r = demo_rule -> exists e, lookup 1 (translate r) = Some e /\ e_type e = MIndex).
  { intros r ->. assert (X : option_map e_type (lookup 1 (translate demo_rule)) = Some MIndex) by (vm_compute; reflexivity).
    destruct (lookup 1 (translate demo_rule)) as [e|]; [|discriminate]. exists e. split; [reflexivity|cbn [option_map] in X; congruence]. }
  apply G. reflexivity.
Qed.
Example C49_nonvacuous : readable (Listed [4; 1; 4]) 2 (Some (newParam demo_rule 5)) /\ tvalid 5 (Listed [4; 1; 4]) /\ fits 5 2.
Proof.
  split; [|split; [repeat constructor; lia|unfold fits, two64; lia]]. intros p Q. injection Q as <-. destruct (demo_param 5 ltac:(lia)) as (A & B & C).
  split; [exact A|]. split; [exact B|]. split; [exact C|]. cbn [tcount length]. change (p_sz (newParam demo_rule 5)) with 5. lia.
Qed.

