(** Properties C09 and C39 to C49: files as a whole. *)
From Coq Require Import Reals Lra Permutation Sorted.
From Flocq Require Import Core IEEE754.BinarySingleNaN.
From Verif Require Import Base NumEncModel NumEncSpec NumEncProofs CharEncModel LayoutModel LayoutProofs DataIOModel DataIOProofs
  RuleModel RuleProofs DoubleModel ParamModel ParamProofs HeaderProofs ScalarProofs FileSpec FileModel FileProofs WriteSpec WriteProofs ParamProperties ReadProofs OpenProofs.
Open Scope Z_scope.

Definition ranks (h : history) (p : nat) : list wstate := map (rank_state h) (seq 0 p).
(** The number of traces all ranks together ask for. *)
Definition asked_by_all (h : history) (p : nat) : Z := zmax (map (fun r => asked (rank_ops h r)) (seq 0 p)).
(** Every rank announces before it writes, stays below nt and has no error. *)
Definition well_behaved (nt ns : Z) (h : history) (p : nat) : Prop :=
  forall r, (r < p)%nat -> orderly nt (rank_ops h r) /\ w_err (rank_state h r) = false /\ w_ns (rank_state h r) = ns.
Definition all_write (h : history) (p : nat) : Prop := forall r, (r < p)%nat -> exists o, In o (rank_ops h r) /\ writes o.

Lemma ranks_head h p : (0 < p)%nat -> forall d, hd d (ranks h p) = rank_state h 0.
Proof. destruct p; [lia|]. reflexivity. Qed.
Lemma in_ranks h p w : In w (ranks h p) <-> exists r, (r < p)%nat /\ rank_state h r = w.
Proof.
  unfold ranks. rewrite in_map_iff. split; intros (r & A & B).
  - apply in_seq in B. exists r. split; [lia|exact A].
  - exists r. split; [exact B|apply in_seq; lia].
Qed.
Lemma close_all nt ns h p : (0 < p)%nat -> nt < two64 -> well_behaved nt ns h p -> all_write h p ->
  forall w, In w (ranks h p) -> close_nt (ranks h p) w = asked_by_all h p /\ w_stalent w = true /\ w_err w = false /\ w_ns w = ns /\ w_writeHO w = true /\
    close_events (ranks h p) w = [CMax; CSize (getFileSz (asked_by_all h p) ns); CHeader].
Proof.
  intros P NT WB AW.
  assert (E : map w_nt (ranks h p) = map (fun r => asked (rank_ops h r)) (seq 0 p)).
  { unfold ranks. rewrite map_map. apply map_ext_in. intros r R. apply in_seq in R. destruct (WB r ltac:(lia)) as (O & _).
    apply (orderly_nt nt (rank_ops h r) NT O). }
  intros w W. apply in_ranks in W. destruct W as (r & R & <-). destruct (WB r R) as (O & ER & NS).
  destruct (orderly_nt nt (rank_ops h r) NT O) as (_ & ST). pose proof (proj2 ST (AW r R)) as S. change (local (rank_ops h r) w_init) with (rank_state h r) in S.
  pose proof (writeHO_stays (rank_ops h r) w_init eq_refl) as HO. change (local (rank_ops h r) w_init) with (rank_state h r) in HO.
  assert (N : close_nt (ranks h p) (rank_state h r) = asked_by_all h p) by (unfold close_nt; rewrite S, E; reflexivity).
  repeat (split; [first [assumption|reflexivity]|]). unfold close_events. rewrite ER, S, HO, N, NS. reflexivity.
Qed.
Lemma asked_le nt h p : (forall r, (r < p)%nat -> orderly nt (rank_ops h r)) -> 0 <= nt -> 0 <= asked_by_all h p <= nt.
Proof.
  intros O NT. split; [apply zmax_nonneg|]. unfold asked_by_all. destruct (zmax_witness (map (fun r => asked (rank_ops h r)) (seq 0 p))) as [E|E]; [lia|].
  apply in_map_iff in E. destruct E as (r & <- & R). apply in_seq in R. destruct (O r ltac:(lia)) as (a & b & -> & A1 & A2 & B).
  unfold asked, announced. rewrite fold_left_app, map_app, zmax_app, (no_writes_end a A1), (announced_after b) by (intros o I; apply B, I).
  apply Z.max_lub; [|apply Z.max_lub; [exact NT|]].
  - clear -A2 NT. enough (X : forall x, x <= nt -> (forall n, In (WNt n) a -> 0 <= n <= nt) -> fold_left (fun (a : Z) (o : wop) => match o with WNt n => n | _ => a end) a x <= nt) by (apply X; [lia|assumption]). clear A2.
    induction a as [|o a IH]; intros x X H; [exact X|]. cbn [fold_left]. apply IH; [|intros; apply H; right; assumption].
    destruct o; try exact X. apply H. left. reflexivity.
  - destruct (zmax_witness (map write_end b)) as [E|E]; [lia|]. apply in_map_iff in E. destruct E as (o & <- & I). destruct (B o I) as (_ & W).
    destruct o as [| | | |sizes t trc prm skip]; cbn [write_end] in *; try lia. destruct t as [o n|l]; cbn [write_fine] in W; [lia|].
    destruct (zmax_witness (map (Z.add 1) l)) as [E|E]; [lia|]. apply in_map_iff in E. destruct E as (x & <- & X).
    destruct W as (W & _). rewrite Forall_forall in W. specialize (W x X). lia.
Qed.

(** C39: after every rank announced, wrote and closed, the size is that of the
    traces asked for, and closing succeeds on all ranks. *)
Theorem C39_size_after_close_partial :
  forall maxSize p h f nt ns,
  (0 < p)%nat -> 3600 <= maxSize -> fits nt ns -> well_behaved nt ns h p -> all_write h p ->
  (exists hd, header (rank_state h 0) = Some hd) ->
  exists f', close maxSize (ranks h p) f = Some f' /\ fsize f' = 3600 + asked_by_all h p * (240 + 4 * ns).
Proof.
  intros maxSize p h f nt ns P M F WB AW (hd & HD). pose proof F as (N & NT & SZ & _).
  assert (NT2 : nt < two64). { assert (nt * 240 <= nt * (240 + 4 * ns)) by (apply Z.mul_le_mono_nonneg_l; lia). lia. }
  assert (I0 : In (rank_state h 0) (ranks h p)) by (apply in_ranks; exists 0%nat; auto).
  destruct (close_all nt ns h p P NT2 WB AW _ I0) as (E0 & S0 & ER0 & N0 & H0 & V0).
  pose proof (asked_le nt h p ltac:(intros r R; apply WB, R) NT) as A.
  destruct (close_spec maxSize (rank_state h 0) (ranks h p) f M I0 (ranks_head h p P _)) with (h := hd) as (f' & C & S & _); try assumption.
  - intros w W. rewrite V0. apply (close_all nt ns h p P NT2 WB AW w W).
  - rewrite S0. reflexivity.
  - rewrite E0, N0. apply (fits_le _ nt); assumption.
  - exists f'. split; [exact C|]. rewrite S, E0, N0. reflexivity.
Qed.
Print Assumptions C39_size_after_close_partial.

(** A whole life of a file: p ranks run the history h, all close. *)
Record written_file (maxSize : Z) (p : nat) (h : history) (f0 f' : file) (nt ns : Z) : Prop := mkWritten {
  wf_p : (0 < p)%nat;
  wf_max : 3600 <= maxSize /\ 2 * (240 + 4 * ns) <= maxSize;     (* the I/O block holds the header and two traces *)
  wf_fits : fits nt ns;                                          (* sizes below 2^64 *)
  wf_bytes : file_bytes f0;
  wf_ranks : forall x, In x h -> (fst x < p)%nat;
  wf_well : well_behaved nt ns h p;                              (* announce first, no errors, the same ns *)
  wf_all : all_write h p;                                        (* every rank writes something *)
  wf_ok : history_ok nt ns h;                                    (* writes use the common ns, are below nt *)
  wf_header : exists hd, header (rank_state h 0) = Some hd;      (* the interval can be rounded to an integer *)
  wf_run : write_file maxSize p h f0 = Some f' }.

Lemma life maxSize p h f0 f' nt ns : written_file maxSize p h f0 f' nt ns ->
  exists f hd k, run maxSize h f0 = Some f /\ fits (asked_by_all h p) ns /\ ns <= 32767 /\ 0 <= ns /\ asked_by_all h p <= nt /\
  header (rank_state h 0) = Some hd /\ dlround (ddiv (w_inc (rank_state h 0)) incFactor) = Some k /\
  fsize f' = trace_at ns (asked_by_all h p) /\
  (forall q, 0 <= q < 3600 -> fbyte f' q = hd q) /\
  (forall q, 3600 <= q < fsize f' -> fbyte f' q = if q <? fsize f then fbyte f q else 0) /\
  rd16 hd 3220 = ns /\ rd16 hd 3216 = s16 k /\ rd16 hd 3224 = 5 /\
  (forall q, 0 <= q < 3200 -> hd q = nth (Z.to_nat q) (w_text (rank_state h 0)) 0).
Proof.
  intros [P (M & M2) F FB RK WB AW OK (hd & HD) R]. pose proof F as (N & NT & SZ & _).
  unfold write_file in R. destruct (run maxSize h f0) as [f|] eqn:RUN; [|discriminate]. cbn [obind] in R.
  change (map (rank_state h) (seq 0 p)) with (ranks h p) in R.
  assert (NT2 : nt < two64). { assert (nt * 240 <= nt * (240 + 4 * ns)) by (apply Z.mul_le_mono_nonneg_l; lia). lia. }
  assert (I0 : In (rank_state h 0) (ranks h p)) by (apply in_ranks; exists 0%nat; auto).
  destruct (close_all nt ns h p P NT2 WB AW _ I0) as (E0 & S0 & ER0 & N0 & H0 & V0).
  pose proof (asked_le nt h p ltac:(intros r Hr; apply WB, Hr) NT) as A.
  assert (FA : fits (asked_by_all h p) ns) by (apply (fits_le _ nt); assumption).
  destruct (close_spec maxSize (rank_state h 0) (ranks h p) f M I0 (ranks_head h p P _)) with (h := hd) as (f1 & C & S & B1 & B2); try assumption.
  - intros w W. rewrite V0. apply (close_all nt ns h p P NT2 WB AW w W).
  - rewrite S0. reflexivity.
  - rewrite E0, N0. exact FA.
  - assert (f1 = f') as -> by congruence. rewrite E0, N0 in S.
    destruct (header_some _ _ HD (rank_text h 0)) as (k & K & X1 & X2 & X3 & X4).
    pose proof (rank_ns h 0) as NSB. rewrite N0 in *.
    exists f, hd, k. split; [reflexivity|]. split; [exact FA|]. split; [exact NSB|]. split; [exact N|]. split; [lia|]. split; [exact HD|]. split; [exact K|].
    split; [exact S|]. split; [exact B1|]. split; [exact B2|].
    split; [rewrite X1; apply s16_id; unfold in_s16; lia|]. split; [exact X2|]. split; [exact X3|exact X4].
Qed.
(** every write ends before the number of traces asked for *)
Lemma in_rank_ops h r o : In (r, o) h -> In o (rank_ops h r).
Proof. intros I. unfold rank_ops. apply in_map_iff. exists (r, o). split; [reflexivity|]. apply filter_In. split; [exact I|]. cbn. apply Nat.eqb_refl. Qed.
Lemma write_end_asked h p r o : In (r, o) h -> (r < p)%nat -> write_end o <= asked_by_all h p.
Proof.
  intros I R. apply Z.le_trans with (asked (rank_ops h r)).
  - unfold asked. pose proof (zmax_in (map write_end (rank_ops h r)) (write_end o) (in_map _ _ _ (in_rank_ops h r o I))). lia.
  - apply zmax_in. apply (in_map (fun r => asked (rank_ops h r))). apply in_seq. lia.
Qed.
Lemma last_in {A} (g : wop -> option A) : forall (h : history) acc v,
  fold_left (fun acc (x : nat * wop) => match g (snd x) with Some s => Some s | None => acc end) h acc = Some v ->
  acc = Some v \/ exists r o, In (r, o) h /\ g o = Some v.
Proof.
  induction h as [|[r o] h IH]; intros acc v H; [left; exact H|]. cbn [fold_left snd] in H. apply IH in H. destruct H as [H|(r' & o' & I & G)].
  - destruct (g o) as [s|] eqn:E; [right; exists r, o; split; [left; reflexivity|congruence]|left; exact H].
  - right. exists r', o'. split; [right; exact I|exact G].
Qed.
Lemma history_op nt ns h r o : history_ok nt ns h -> In (r, o) h -> exists w, op_ok nt ns w o.
Proof. intros OK I. apply in_split in I. destruct I as (h1 & h2 & ->). eexists. exact (OK h1 r o h2 eq_refl). Qed.
Lemma target_end nt t sizes trc prm skip i : in_file nt t -> (exists j, find_pos t i = Some j) -> 0 <= i /\ i + 1 <= write_end (WTrace sizes t trc prm skip).
Proof.
  intros V (j & FP). apply find_pos_some in FP. destruct FP as (J & E). apply in_file_valid in V. destruct V as (V & _).
  pose proof (tpos_range nt t j V J). destruct t as [o n|l]; cbn [write_end tcount tpos] in *; [lia|]. split; [lia|].
  rewrite Z.add_comm. apply zmax_in. apply in_map. rewrite <- E. apply nth_In. lia.
Qed.
Lemma last_samples_below nt ns h p i s : (forall x, In x h -> (fst x < p)%nat) -> history_ok nt ns h -> last_samples ns h i = Some s -> 0 <= i < asked_by_all h p.
Proof.
  intros RK OK L. apply (last_in (fun o => written ns o i)) in L. destruct L as [L|(r & o & I & W)]; [discriminate|].
  destruct (history_op nt ns h r o OK I) as (w & O). destruct o as [| | | |sizes t [m|] prm skip]; cbn [written] in W; try discriminate.
  destruct (find_pos t i) as [j|] eqn:FP; [|discriminate]. destruct O as (_ & V & _).
  pose proof (target_end nt t sizes (Some m) prm skip i V ltac:(eauto)). pose proof (write_end_asked h p r _ I (RK _ I)). lia.
Qed.
Lemma last_md_below nt ns h p i v : (forall x, In x h -> (fst x < p)%nat) -> history_ok nt ns h -> last_md h i = Some v -> 0 <= i < asked_by_all h p.
Proof.
  intros RK OK L. apply (last_in (fun o => written_md o i)) in L. destruct L as [L|(r & o & I & W)]; [discriminate|].
  destruct (history_op nt ns h r o OK I) as (w & O). destruct o as [| | | |sizes t trc [q|] skip]; cbn [written_md] in W; try discriminate.
  destruct (find_pos t i) as [j|] eqn:FP; [|discriminate]. destruct O as (_ & V & _).
  pose proof (target_end nt t sizes trc (Some q) skip i V ltac:(eauto)). pose proof (write_end_asked h p r _ I (RK _ I)). lia.
Qed.
Lemma trace_inside ns nt i x : 0 <= ns -> 0 <= i < nt -> 0 <= x < 240 + 4 * ns -> 3600 <= trace_at ns i + x < trace_at ns nt.
Proof.
  intros N I X. unfold trace_at. assert ((i + 1) * (240 + 4 * ns) <= nt * (240 + 4 * ns)) by (apply Z.mul_le_mono_nonneg_r; lia).
  assert (0 <= i * (240 + 4 * ns)) by (apply Z.mul_nonneg_nonneg; lia). lia.
Qed.

(** C40: ns, the number of traces and the interval are read back; the interval
    to within one rounding when it is a whole number of microseconds. *)
Theorem C40_header_round_trip_partial :
  forall maxSize p h f0 f' nt ns maxSize' sizes,
  written_file maxSize p h f0 f' nt ns -> 3600 <= maxSize' ->
  exists rd, open_file maxSize' sizes f' = Some rd /\ r_ns rd = ns /\ r_nt rd = asked_by_all h p /\ r_format rd = 5 /\
  r_text rd = read_text (w_text (rank_state h 0) ++ repeat 0 (3200 - length (w_text (rank_state h 0)))) /\
  (forall us, 0 <= us <= 32767 -> is_finite (w_inc (rank_state h 0)) = true ->
     (Rabs (B2R (w_inc (rank_state h 0)) - IZR us / 1000000) <= / 4000000)%R ->
     is_finite (r_inc rd) = true /\ (Rabs (B2R (r_inc rd) - IZR us / 1000000) <= IZR us / 1000000 * bpow radix2 (-51))%R /\
     (w_inc (rank_state h 0) = dmul incFactor (d_of_Z us) -> r_inc rd = w_inc (rank_state h 0))).
Proof.
  intros maxSize p h f0 f' nt ns maxSize' sizes W M. destruct (life _ _ _ _ _ _ _ W) as (f & hd & k & _ & FA & NS & NS0 & _ & _ & K & SZ & B1 & _ & X1 & X2 & X3 & X4).
  eexists. split; [apply (open_spec maxSize' sizes f' hd _ _ M FA NS SZ B1 X1)|]. cbn [r_ns r_nt r_inc r_format r_text].
  split; [reflexivity|]. split; [reflexivity|]. split; [exact X3|]. split; [f_equal; apply text_bytes; [apply rank_text|exact X4]|].
  intros us U FI D. pose proof (inc_round _ us FI U D) as R. rewrite R in K. injection K as <-. rewrite X2, s16_id by (unfold in_s16; lia).
  destruct (inc_value us U) as (A & B). split; [exact A|]. split; [exact B|]. intros E. symmetry. exact E.
Qed.
Print Assumptions C40_header_round_trip_partial.

(** A small life: two ranks, three traces of two samples. *)
Definition demo_mem (s : Z) : mem := fun a => (a * 7 + s) mod 256.
Lemma demo_bytes s : mem_bytes (demo_mem s).
Proof. intros a. apply Z.mod_pos_bound. lia. Qed.
Definition demo (inc : D) : history :=
  [ (0%nat, WNs 2); (1%nat, WNs 2); (0%nat, WInc inc); (1%nat, WInc inc); (1%nat, WTrace [1] (Listed [0; 2]) (Some (demo_mem 1)) None 0);
    (0%nat, WTrace [2; 1] (Range 0 2) (Some (demo_mem 50)) None 0) ].
Definition empty_file : file := mkFile 0 (fun _ => 0).
Definition us_250 : D := dmul incFactor (d_of_Z 250).
Lemma demo_life inc : disnormal inc = true -> deqb (d_of_Z 0) inc = false -> (exists k, dlround (ddiv inc incFactor) = Some k) ->
  exists f', written_file 4000 2 (demo inc) empty_file f' 3 2 /\ w_inc (rank_state (demo inc) 0) = inc /\ asked_by_all (demo inc) 2 = 3.
Proof.
  intros DN DE (k & DK).
  assert (S0 : rank_state (demo inc) 0 = mkW 2 2 [] inc true true true true false) by (cbn -[deqb d_of_Z disnormal demo_mem]; rewrite DN; cbn -[deqb d_of_Z demo_mem]; rewrite DE; reflexivity).
  assert (S1 : rank_state (demo inc) 1 = mkW 2 3 [] inc true true true true false) by (cbn -[deqb d_of_Z disnormal demo_mem]; rewrite DN; cbn -[deqb d_of_Z demo_mem]; rewrite DE; reflexivity).
  assert (F : fits 3 2) by (unfold fits, two64; lia).
  assert (O0 : rank_ops (demo inc) 0 = [WNs 2; WInc inc; WTrace [2; 1] (Range 0 2) (Some (demo_mem 50)) None 0]) by reflexivity.
  assert (O1 : rank_ops (demo inc) 1 = [WNs 2; WInc inc; WTrace [1] (Listed [0; 2]) (Some (demo_mem 1)) None 0]) by reflexivity.
  assert (WB : well_behaved 3 2 (demo inc) 2).
  { intros r R. assert (r = 0 \/ r = 1)%nat as [-> | ->] by lia; rewrite ?S0, ?S1; (split; [|split; reflexivity]).
    - rewrite O0. exists [WNs 2; WInc inc], [WTrace [2; 1] (Range 0 2) (Some (demo_mem 50)) None 0]. split; [reflexivity|].
      split; [intros o [<-|[<-|[]]]; (let X := fresh in intros X; exact X)|]. split; [intros n [A|[A|[]]]; discriminate|]. intros o [<-|[]]. split; [(let X := fresh in intros X; exact X)|]. cbn. lia.
    - rewrite O1. exists [WNs 2; WInc inc], [WTrace [1] (Listed [0; 2]) (Some (demo_mem 1)) None 0]. split; [reflexivity|].
      split; [intros o [<-|[<-|[]]]; (let X := fresh in intros X; exact X)|]. split; [intros n [A|[A|[]]]; discriminate|]. intros o [<-|[]]. split; [(let X := fresh in intros X; exact X)|].
      cbn [write_fine last]. split; repeat constructor; lia. }
  assert (AW : all_write (demo inc) 2).
  { intros r R. assert (r = 0 \/ r = 1)%nat as [-> | ->] by lia; rewrite ?O0, ?O1; eexists; (split; [right; right; left; reflexivity|exact Logic.I]). }
  assert (HD : exists hd, header (rank_state (demo inc) 0) = Some hd).
  { rewrite S0. unfold header. cbn [w_inc]. rewrite DK. cbn [obind]. eexists. reflexivity. }
  assert (RN : exists f, run 4000 (demo inc) empty_file = Some f).
  { unfold run, demo. cbn [run_from wfile obind]. set (d1 := [] ++ _). set (d2 := d1 ++ _). set (d3 := d2 ++ _). set (d4 := d3 ++ _).
    replace (w_ns (rank_state d4 1)) with 2 by (cbn; rewrite DN; reflexivity).
    replace (w_ns (rank_state (d4 ++ [_]) 0)) with 2 by (cbn; rewrite DN; reflexivity). clear d4 d3 d2 d1.
    assert (X : forall g, exists g', writeTraceT 4000 [1] 2 (Listed [0; 2]) (Some (demo_mem 1)) None 0 g = Some g') by (intros; eexists; reflexivity).
    destruct (X empty_file) as (g & ->). cbn [option_map obind].
    assert (Y : forall g, exists g', writeTraceT 4000 [2; 1] 2 (Range 0 2) (Some (demo_mem 50)) None 0 g = Some g') by (intros; eexists; reflexivity).
    destruct (Y (fst g)) as (g2 & ->). cbn [option_map obind]. eexists. reflexivity. }
  destruct RN as (f & RN). destruct (C39_size_after_close_partial 4000 2 (demo inc) f 3 2 ltac:(lia) ltac:(lia) F WB AW HD) as (f' & C & _).
  exists f'. split; [|split; [rewrite S0; reflexivity|reflexivity]]. constructor; try assumption; try lia.
  - intros q. cbn. unfold is_byte. lia.
  - intros x X. repeat (destruct X as [<-|X]; [cbn; lia|]). destruct X.
  - intros h1 r o h2 E. unfold demo in E.
    destruct h1 as [|? h1]; [injection E as <- <- <-; exact Logic.I|injection E as <- E].
    destruct h1 as [|? h1]; [injection E as <- <- <-; exact Logic.I|injection E as <- E].
    destruct h1 as [|? h1]; [injection E as <- <- <-; exact Logic.I|injection E as <- E].
    destruct h1 as [|? h1]; [injection E as <- <- <-; exact Logic.I|injection E as <- E].
    destruct h1 as [|? h1]; [injection E as <- <- <-|injection E as <- E].
    { unfold op_ok, rank_state, rank_ops. cbn -[deqb d_of_Z disnormal demo_mem tvalid tnodup]. rewrite DN. cbn -[deqb d_of_Z disnormal demo_mem tvalid tnodup].
      split; [reflexivity|]. split; [split; [repeat constructor; lia|repeat constructor; cbn; intuition lia]|]. intros m Q. injection Q as <-. apply demo_bytes. }
    destruct h1 as [|? h1]; [injection E as <- <- <-|injection E as <- E].
    { unfold op_ok, rank_state, rank_ops. cbn -[deqb d_of_Z disnormal demo_mem tvalid tnodup]. rewrite DN. cbn -[deqb d_of_Z disnormal demo_mem tvalid tnodup].
      split; [reflexivity|]. split; [cbn; lia|]. intros m Q. injection Q as <-. apply demo_bytes. }
    destruct h1; discriminate.
  - unfold write_file. rewrite RN. exact C.
Qed.
Example C39_nonvacuous : exists f', written_file 4000 2 (demo us_250) empty_file f' 3 2 /\ asked_by_all (demo us_250) 2 = 3.
Proof.
  destruct (demo_life us_250) as (f' & W & _ & A); [vm_compute; reflexivity|vm_compute; reflexivity|eexists; vm_compute; reflexivity|]. eauto.
Qed.
Example C40_nonvacuous : exists f', written_file 4000 2 (demo us_250) empty_file f' 3 2 /\
  w_inc (rank_state (demo us_250) 0) = dmul incFactor (d_of_Z 250) /\ is_finite us_250 = true /\ (Rabs (B2R us_250 - IZR 250 / 1000000) <= / 4000000)%R.
Proof.
  destruct (demo_life us_250) as (f' & W & E & _); [vm_compute; reflexivity|vm_compute; reflexivity|eexists; vm_compute; reflexivity|].
  exists f'. split; [exact W|]. split; [exact E|]. destruct (inc_value 250 ltac:(lia)) as (A & B). split; [exact A|]. eapply Rle_trans; [exact B|].
  change (bpow radix2 (-51)) with (/ 2251799813685248)%R. lra.
Qed.
(** C40 refuted: the double nearest to 5 microseconds is not the one read back. *)
Definition us_5 : D := d_bin 5902958103587057 (-70).
Theorem C40_exact_interval_refuted :
  exists p h f' rd, written_file 4000 p h empty_file f' 3 2 /\ w_inc (rank_state h 0) = us_5 /\
  us_5 = ddiv (d_of_Z 5) (d_of_Z 1000000) /\
  open_file 4000 [] f' = Some rd /\ r_inc rd <> us_5.
Proof.
  assert (DV : us_5 = ddiv (d_of_Z 5) (d_of_Z 1000000)) by (apply B2SF_inj; vm_compute; reflexivity).
  destruct (demo_life us_5) as (f' & W & E & _); [vm_compute; reflexivity|vm_compute; reflexivity|eexists; vm_compute; reflexivity|].
  exists 2%nat, (demo us_5), f'. destruct (life _ _ _ _ _ _ _ W) as (f & hd & k & _ & FA & NS & NS0 & _ & _ & K & SZ & B1 & _ & X1 & X2 & X3 & X4).
  eexists. split; [exact W|]. split; [exact E|]. split; [exact DV|]. split; [apply (open_spec 4000 [] f' hd _ _ ltac:(lia) FA NS SZ B1 X1)|].
  cbn [r_inc]. rewrite E in K. assert (K5 : dlround (ddiv us_5 incFactor) = Some 5) by (vm_compute; reflexivity). rewrite K5 in K. injection K as <-.
  rewrite X2. intros Q. apply (f_equal (fun x => deqb x us_5)) in Q. revert Q. vm_compute. discriminate.
Qed.
Print Assumptions C40_exact_interval_refuted.

(** C41: only intervals that are not normal numbers are reported. *)
Theorem C41_not_normal_reported_partial :
  forall w d, disnormal d = false -> w_err (wlocal (WInc d) w) = true /\ w_inc (wlocal (WInc d) w) = w_inc w.
Proof. intros w d E. cbn [wlocal]. rewrite E. auto. Qed.
Print Assumptions C41_not_normal_reported_partial.
Example C41_nonvacuous : disnormal (d_of_Z 0) = false /\ disnormal (d_bin 1 (-1074)) = false.
Proof. split; vm_compute; reflexivity. Qed.
(** 40 milliseconds are stored, without an error, as -25536 microseconds; 0.4
    microseconds as 0. *)
Definition ms_40 : D := d_bin 5764607523034235 (-57).
Definition us_0_4 : D := d_bin 7555786372591432 (-74).
Theorem C41_interval_overflow_refuted :
  exists p h f' rd, written_file 4000 p h empty_file f' 3 2 /\ w_inc (rank_state h 0) = ms_40 /\ ms_40 = ddiv (d_of_Z 40) (d_of_Z 1000) /\
  (forall r, (r < p)%nat -> w_err (rank_state h r) = false) /\
  open_file 4000 [] f' = Some rd /\ r_inc rd = dmul incFactor (d_of_Z (-25536)).
Proof.
  assert (DV : ms_40 = ddiv (d_of_Z 40) (d_of_Z 1000)) by (apply B2SF_inj; vm_compute; reflexivity).
  destruct (demo_life ms_40) as (f' & W & E & _); [vm_compute; reflexivity|vm_compute; reflexivity|eexists; vm_compute; reflexivity|].
  exists 2%nat, (demo ms_40), f'. destruct (life _ _ _ _ _ _ _ W) as (f & hd & k & _ & FA & NS & NS0 & _ & _ & K & SZ & B1 & _ & X1 & X2 & X3 & X4).
  eexists. split; [exact W|]. split; [exact E|]. split; [exact DV|]. split; [intros r R; apply W, R|].
  split; [apply (open_spec 4000 [] f' hd _ _ ltac:(lia) FA NS SZ B1 X1)|].
  cbn [r_inc]. rewrite E in K. assert (K5 : dlround (ddiv ms_40 incFactor) = Some 40000) by (vm_compute; reflexivity). rewrite K5 in K. injection K as <-.
  rewrite X2. reflexivity.
Qed.
Print Assumptions C41_interval_overflow_refuted.
Theorem C41_interval_underflow_refuted :
  exists p h f' rd, written_file 4000 p h empty_file f' 3 2 /\ w_inc (rank_state h 0) = us_0_4 /\ us_0_4 = ddiv (d_of_Z 4) (d_of_Z 10000000) /\
  (forall r, (r < p)%nat -> w_err (rank_state h r) = false) /\
  open_file 4000 [] f' = Some rd /\ r_inc rd = d_of_Z 0.
Proof.
  assert (DV : us_0_4 = ddiv (d_of_Z 4) (d_of_Z 10000000)) by (apply B2SF_inj; vm_compute; reflexivity).
  destruct (demo_life us_0_4) as (f' & W & E & _); [vm_compute; reflexivity|vm_compute; reflexivity|eexists; vm_compute; reflexivity|].
  exists 2%nat, (demo us_0_4), f'. destruct (life _ _ _ _ _ _ _ W) as (f & hd & k & _ & FA & NS & NS0 & _ & _ & K & SZ & B1 & _ & X1 & X2 & X3 & X4).
  eexists. split; [exact W|]. split; [exact E|]. split; [exact DV|]. split; [intros r R; apply W, R|].
  split; [apply (open_spec 4000 [] f' hd _ _ ltac:(lia) FA NS SZ B1 X1)|].
  cbn [r_inc]. rewrite E in K. assert (K5 : dlround (ddiv us_0_4 incFactor) = Some 0) by (vm_compute; reflexivity). rewrite K5 in K. injection K as <-.
  rewrite X2. apply B2SF_inj. vm_compute. reflexivity.
Qed.
Print Assumptions C41_interval_underflow_refuted.
