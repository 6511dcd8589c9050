(** Lemmas about the output file of a group of files. *)
From Coq Require Import Reals Lra Permutation Sorted.
From Flocq Require Import Core IEEE754.BinarySingleNaN.
From Verif Require Import Base DecompModel DecompSpec DecompProofs NumEncModel NumEncSpec NumEncProofs CharEncModel CharEncProofs LayoutModel LayoutProofs DataIOModel DataIOProofs
  RuleModel RuleProofs DoubleModel ParamModel ParamProofs HeaderProofs ScalarProofs FileSpec FileModel FileProofs WriteSpec WriteProofs ParamProperties ReadProofs OpenProofs FileProperties TraceProperties.
From Verif Require Import SortSpec SortModel FlowModel FlowProofs FlowProperties CopySpec CopyProofs ExampleModel ExampleProofs SetFileModel SetFileSpec SetFileProofs.
Import ListNotations.
Open Scope Z_scope.

Definition set_announcements (ns : Z) (inc : D) (outmsg : list Z) : list wop := [WNs ns; WInc inc; WText outmsg].
Lemma local_set ns inc outmsg : 0 <= ns <= 32767 -> disnormal inc = true ->
  let w := local (set_announcements ns inc outmsg) w_init in
  w_err w = false /\ w_nsSet w = true /\ w_ns w = ns /\ w_inc w = inc.
Proof.
  intros NS DN. unfold set_announcements. cbn [local fold_left].
  assert (W2 : let w2 := wlocal (WInc inc) (wlocal (WNs ns) w_init) in w_ns w2 = ns /\ w_nsSet w2 = true /\ w_err w2 = false /\ w_inc w2 = inc).
  { cbn [wlocal]. replace (32767 <? ns) with false by lia. rewrite DN. cbn [w_err w_nsSet w_ns w_inc w_init]. auto. }
  cbv zeta in W2. revert W2. generalize (wlocal (WInc inc) (wlocal (WNs ns) w_init)) as w2. intros w2 (A1 & A2 & A3 & A4). cbn [wlocal].
  destruct (text_eqb _ _); cbn [w_err w_nsSet w_ns w_inc]; auto.
Qed.
Lemma max_block_pos ns pm : 0 <= ns <= 32767 -> 0 <= pm <= 100000000 -> (0 < Z.to_nat (max_block ns pm))%nat.
Proof.
  intros N P. unfold max_block. rewrite u64_small by (unfold in_u64, two64; lia). assert (0 < 1073741824 / (40 + (240 + 4 * ns) + 2 * pm + 2 * (4 * ns))) by (apply Z.div_str_pos; lia). lia.
Qed.
Lemma fold_max_ge : forall l a, (a <= fold_left Nat.max l a)%nat /\ (forall x, In x l -> (x <= fold_left Nat.max l a)%nat).
Proof. induction l as [|x l IH]; intros a; [split; [reflexivity|intros x []]|]. cbn [fold_left]. destruct (IH (Nat.max a x)) as (A & B). split; [lia|]. intros y [<-|Y]; [lia|apply B; exact Y]. Qed.
Lemma biggest_ge p fds k r : (r < p)%nat -> (length (f_ilst (nth k (fds r) no_fd)) <= set_biggest p fds k)%nat.
Proof. intros R. apply fold_max_ge. apply in_map_iff. exists r. split; [reflexivity|apply in_seq; lia]. Qed.

Lemma ceil_pos n max : (0 < max)%nat -> (1 <= n)%nat -> (1 <= ceil_div n max)%nat.
Proof.
  intros M N. unfold ceil_div. pose proof (Nat.div_mod n max ltac:(lia)) as E. set (q := (n / max)%nat) in *. set (m := (n mod max)%nat) in *. clearbody q m. destruct (Nat.ltb_spec 0 m) as [L|L]; [lia|].
  destruct q as [|q]; [rewrite Nat.mul_0_r in E; lia|lia].
Qed.
Lemma set_calls_cons maxSize sizes rl srt outmsg g fds p r rd f0 g' : g = (rd, f0) :: g' ->
  set_calls maxSize sizes rl srt outmsg g fds p r =
  obind (omap (fun k => set_file maxSize (sizes k) rl srt (Z.to_nat (max_block (r_ns rd) (paramMem rl))) (set_biggest p fds k) (nth k g (rd, f0)) (nth k (fds r) no_fd)) (seq 0 (length g))) (fun ws =>
  Some ([WNs (r_ns rd); WInc (r_inc rd); WText outmsg] ++ concat ws)).
Proof. intros ->. reflexivity. Qed.

Section Output.
Context (maxSize : Z) (rl : rule) (srt : sorter) (outmsg : list Z) (g : list (reader * file)) (fds : nat -> list fdesc) (p : nat) (ns nt : Z) (inc : D) (src : Z -> nat * Z).
Context (M1 : 3600 <= maxSize) (M2 : 2 * (240 + 4 * ns) <= maxSize) (NS : 0 <= ns <= 32767).
Context (G0 : g <> []) (GI : forall x, In x g -> set_input maxSize ns inc x).
Context (PL : placed p nt (map (fun x => r_nt (fst x)) g) fds src).
Context (US : usable rl) (GD : good rl) (LB : exists e, lookup 1 (translate rl) = Some e /\ e_type e = MIndex) (NC : counts rl MCopy <> 0) (PM : 0 <= paramMem rl <= 100000000).
Context (SRT : std_sort srt).
(** The trace of the input that goes to position b. *)
Definition source_of (b : Z) : file * Z := let '(k, a) := src b in (snd (nth k g (hd (mkR 0 0 inc 0 [], mkFile 0 (fun _ => 0)) g)), a).
Lemma input_facts x : In x g -> fits (r_nt (fst x)) ns /\ has_traces (snd x) (r_nt (fst x)) ns /\ file_bytes (snd x) /\ r_format (fst x) <> 1 /\ r_ns (fst x) = ns /\
  r_inc (fst x) = inc /\ exists us, 1 <= us <= 32767 /\ inc = dmul incFactor (d_of_Z us).
Proof.
  intros X. destruct (GI x X) as [(sizes & SO) SB SS SN SI SF SV]. destruct (open_fits _ _ _ _ M1 SB SS SO ltac:(lia)) as (F & HT). rewrite SN in *.
  destruct (open_inv _ _ _ _ M1 SB SS SO) as (E1 & E2 & E3 & _). repeat (split; [first [assumption|congruence]|]). exists (int16_at (fbyte (snd x)) 3217). split; [|congruence].
  split; [exact SV|]. rewrite int16_rd by apply SB. pose proof (rd16_range (fbyte (snd x)) (3217 - 1)) as Q. unfold in_s16 in Q. lia.
Qed.
Lemma output_calls sizes r : (r < p)%nat -> exists ws, set_calls maxSize sizes rl srt outmsg g fds p r = Some (set_announcements ns inc outmsg ++ ws) /\
  length ws = list_sum (map (fun k => ceil_div (set_biggest p fds k) (Z.to_nat (max_block ns (paramMem rl)))) (seq 0 (length g))) /\
  (forall o, In o ws -> good_write nt ns o /\ call_full source_of ns rl o) /\
  (forall k j, (k < length g)%nat -> (j < length (f_ilst (nth k (fds r) no_fd)))%nat -> exists o, In o ws /\ moved o (nth j (f_olst (nth k (fds r) no_fd)) 0)).
Proof.
  intros R. assert (HG : exists rd f0 g', g = (rd, f0) :: g') by (clear -G0; destruct g as [|(rd, f0) g']; [contradiction|]; eauto). destruct HG as (rd & f0 & g' & EG). rewrite (set_calls_cons _ _ _ _ _ _ _ _ _ _ _ _ EG). destruct (input_facts (rd, f0) ltac:(rewrite EG; left; reflexivity)) as (_ & _ & _ & _ & RN & RI & _). cbn [fst] in RN, RI.
  rewrite RN, RI. set (mx := Z.to_nat (max_block ns (paramMem rl))). assert (MX : (0 < mx)%nat) by (apply max_block_pos; assumption).
  set (d := no_fd).
  assert (HF : forall k, (k < length g)%nat -> exists ws, set_file maxSize (sizes k) rl srt mx (set_biggest p fds k) (nth k g (rd, f0)) (nth k (fds r) d) = Some ws /\ length ws = ceil_div (set_biggest p fds k) mx /\
     (forall o, In o ws -> good_write nt ns o /\ call_full source_of ns rl o) /\
     (forall j, (j < length (f_ilst (nth k (fds r) d)))%nat -> exists o, In o ws /\ moved o (nth j (f_olst (nth k (fds r) d)) 0))).
  { intros k K. destruct (pl_pairs _ _ _ _ _ PL r k R ltac:(rewrite map_length; exact K)) as (P1 & P2 & P3). fold d in P1, P2, P3. destruct (nth k g (rd, f0)) as (rk, fk) eqn:EK.
    destruct (input_facts (rk, fk) ltac:(rewrite <- EK; apply nth_In; exact K)) as (I1 & I2 & I3 & I4 & I5 & _). cbn [fst snd] in *.
    apply (set_file_spec maxSize rl srt rk fk ns nt source_of M2 I5 I1 I2 I3 I4 US GD LB NC SRT (sizes k) mx (set_biggest p fds k) (nth k (fds r) d) MX P1 P2 (biggest_ge p fds k r R)).
    intros j J. destruct (P3 j J) as (Q1 & Q2 & Q3). split; [exact Q1|]. split.
    - rewrite (nth_indep (map (fun x => r_nt (fst x)) g) 0 (r_nt (fst (rd, f0)))) in Q2 by (rewrite map_length; exact K). rewrite (map_nth (fun x => r_nt (fst x))) in Q2. rewrite EK in Q2. exact Q2.
    - unfold source_of. rewrite Q3. f_equal. rewrite (nth_indep _ _ (rd, f0)) by exact K. rewrite EK. reflexivity. }
  assert (HL : forall l, (forall k, In k l -> (k < length g)%nat) -> exists wss, omap (fun k => set_file maxSize (sizes k) rl srt mx (set_biggest p fds k) (nth k g (rd, f0)) (nth k (fds r) d)) l = Some wss /\
     length (concat wss) = list_sum (map (fun k => ceil_div (set_biggest p fds k) mx) l) /\
     (forall o, In o (concat wss) -> good_write nt ns o /\ call_full source_of ns rl o) /\
     (forall k j, In k l -> (j < length (f_ilst (nth k (fds r) d)))%nat -> exists o, In o (concat wss) /\ moved o (nth j (f_olst (nth k (fds r) d)) 0))).
  { clear -HF. induction l as [|k l IH]; intros HK; [exists []; split; [reflexivity|]; split; [reflexivity|]; split; [intros o []|intros k j []]|].
    destruct (HF k (HK k (or_introl eq_refl))) as (ws & E & L & A & B). destruct IH as (wss & E' & L' & A' & B'); [intros; apply HK; right; assumption|].
    exists (ws :: wss). cbn [omap]. rewrite E, E'. cbn [obind concat map]. split; [reflexivity|]. split; [rewrite app_length, L, L'; reflexivity|]. split.
    - intros o O. apply in_app_or in O. destruct O as [O|O]; [apply A|apply A']; exact O.
    - intros k' j [<-|K'] J; [destruct (B j J) as (o & O & Q)|destruct (B' k' j K' J) as (o & O & Q)]; exists o; (split; [apply in_or_app|exact Q]); [left|right]; exact O. }
  destruct (HL (seq 0 (length g))) as (wss & E & L & A & B); [intros k K; apply in_seq in K; lia|]. rewrite E. cbn [obind]. exists (concat wss). split; [reflexivity|]. split; [exact L|]. split; [exact A|].
  intros k j K J. apply B; [apply in_seq; lia|exact J].
Qed.
(** The life of the output file, for calls that satisfy [CM]. *)
Lemma calls_life (CM : wop -> Prop) (wr : nat -> list wop) h f0 maxSize' sizes' : (0 < p)%nat -> 0 < nt -> fits nt ns -> file_bytes f0 -> 3600 <= maxSize' ->
  (forall x, In x h -> (fst x < p)%nat) -> (forall o, In o (set_announcements ns inc outmsg) -> CM o) ->
  (forall r, (r < p)%nat -> rank_ops h r = set_announcements ns inc outmsg ++ wr r /\
    length (wr r) = list_sum (map (fun k => ceil_div (set_biggest p fds k) (Z.to_nat (max_block ns (paramMem rl)))) (seq 0 (length g))) /\
    (forall o, In o (wr r) -> good_write nt ns o /\ CM o) /\
    (forall k j, (k < length g)%nat -> (j < length (f_ilst (nth k (fds r) no_fd)))%nat -> exists o, In o (wr r) /\ moved o (nth j (f_olst (nth k (fds r) no_fd)) 0))) ->
  exists f' rd', write_file maxSize p h f0 = Some f' /\ fsize f' = 3600 + nt * (240 + 4 * ns) /\
  open_file maxSize' sizes' f' = Some rd' /\ r_ns rd' = ns /\ r_nt rd' = nt /\ r_inc rd' = inc /\ written_file maxSize p h f0 f' nt ns /\
  (forall x, In x h -> CM (snd x)) /\
  (forall b, 0 <= b < nt -> exists r sizes t trc prm skip j, In (r, WTrace sizes t trc prm skip) h /\ 0 <= j < tcount t /\ tpos t j = b).
Proof.
  intros P NT F FB0 M' RK ACM WS. set (ann := set_announcements ns inc outmsg) in *.
  assert (HG : exists x0 g', g = x0 :: g') by (clear -G0; destruct g as [|x0 g']; [contradiction|]; eauto). destruct HG as (x0 & g' & EG). destruct (input_facts x0 ltac:(rewrite EG; left; reflexivity)) as (_ & _ & _ & _ & _ & _ & us & US1 & US2).
  destruct (local_set ns inc outmsg NS ltac:(rewrite US2; apply inc_normal; lia)) as (L1 & L2 & L3 & L4). fold ann in L1, L2, L3, L4.
  assert (IV : fin inc /\ (Rabs (val inc - IZR us / 1000000) <= / 4000000)%R).
  { rewrite US2. destruct (inc_value us ltac:(lia)) as (FI & BI). split; [exact FI|]. eapply Rle_trans; [exact BI|].
    assert (K1 : (IZR us <= 32767)%R) by (apply IZR_le; lia). assert (K0 : (0 <= IZR us)%R) by (apply (IZR_le 0); lia).
    assert (S : (bpow radix2 (-51) <= bpow radix2 (-20))%R) by (apply bpow_le; lia). assert (U : (bpow radix2 (-20) = / 1048576)%R) by (cbn; lra). pose proof (bpow_gt_0 radix2 (-51)).
    eapply Rle_trans; [apply Rmult_le_compat_l; [lra|exact S]|]. rewrite U. lra. }
  destruct IV as (FI & BI).
  destruct (pl_cover _ _ _ _ _ PL 0 ltac:(lia)) as (r0 & k0 & j0 & R0 & K0 & J0 & _). rewrite map_length in K0.
  assert (MX : (0 < Z.to_nat (max_block ns (paramMem rl)))%nat) by (apply max_block_pos; assumption).
  assert (CNT : (0 < list_sum (map (fun k => ceil_div (set_biggest p fds k) (Z.to_nat (max_block ns (paramMem rl)))) (seq 0 (length g))))%nat).
  { assert (B1 : (1 <= set_biggest p fds k0)%nat) by (pose proof (biggest_ge p fds k0 r0 R0); lia).
    assert (C1 : (1 <= ceil_div (set_biggest p fds k0) (Z.to_nat (max_block ns (paramMem rl))))%nat).
    { apply ceil_pos; assumption. }
    assert (IK : In k0 (seq 0 (length g))) by (apply in_seq; lia). revert IK C1. clear. generalize (seq 0 (length g)) as l. induction l as [|k l IH]; intros IK C1; [destruct IK|]. cbn [map list_sum fold_right].
    change (fold_right Nat.add 0%nat (map (fun k => ceil_div (set_biggest p fds k) (Z.to_nat (max_block ns (paramMem rl)))) l)) with (list_sum (map (fun k => ceil_div (set_biggest p fds k) (Z.to_nat (max_block ns (paramMem rl)))) l)).
    destruct IK as [<-|IK]; [lia|specialize (IH IK C1); lia]. }
  destruct (program_life maxSize p h f0 nt ns ann wr P M1 M2 F FB0 RK) as ((f' & W) & TI); try assumption.
  { intros r R. apply WS. exact R. }
  { intros o [<-|[<-|[<-|[]]]] Q; exact Q. }
  { intros n [Q|[Q|[Q|[]]]]; discriminate. }
  { unfold header. rewrite L4, (inc_round inc us FI ltac:(lia) BI). cbn [obind]. eauto. }
  { intros r o R I. apply (proj1 (proj2 (proj2 (WS r R))) o I). }
  { intros r R E. destruct (WS r R) as (_ & LN & _). rewrite E in LN. cbn [length] in LN. lia. }
  assert (CF : forall x, In x h -> CM (snd x)).
  { intros (r1, o1) X. pose proof (RK _ X) as R1. cbn [fst snd] in *. pose proof (in_rank_ops _ _ _ X) as Y. destruct (WS r1 R1) as (E & _ & A & _). rewrite E in Y. apply in_app_or in Y. destruct Y as [Y|Y].
    - apply ACM; exact Y.
    - apply A. exact Y. }
  assert (CV : forall b, 0 <= b < nt -> exists r sizes t trc prm skip j, In (r, WTrace sizes t trc prm skip) h /\ 0 <= j < tcount t /\ tpos t j = b).
  { intros b B. destruct (pl_cover _ _ _ _ _ PL b B) as (r & k & j & R & K & J & E). rewrite map_length in K. destruct (WS r R) as (EO & _ & _ & C). destruct (C k j K J) as (o & O & (sz & t & trc & prm & skip & jj & EQ & JJ & TP)).
    exists r, sz, t, trc, prm, skip, jj. split; [|split; [exact JJ|congruence]]. rewrite <- EQ.
    assert (IO : In o (rank_ops h r)) by (rewrite EO; apply in_or_app; right; exact O). unfold rank_ops in IO. apply in_map_iff in IO.
    destruct IO as ((r1 & o1) & EO1 & FI1). apply filter_In in FI1. destruct FI1 as (A & BB). cbn [fst snd] in *. apply Nat.eqb_eq in BB. rewrite <- BB, <- EO1. exact A. }
  destruct (C40_header_round_trip_partial _ _ _ _ _ _ _ maxSize' sizes' W M') as (rd' & O & Q1 & Q2 & Q3 & Q4 & Q5).
  destruct (life _ _ _ _ _ _ _ W) as (f1 & hd & kk & _ & _ & _ & _ & AL & _ & _ & SZ & _).
  assert (AN : asked_by_all h p = nt).
  { apply Z.le_antisymm; [exact AL|]. destruct (CV (nt - 1) ltac:(lia)) as (r & sz & t & trc & prm & skip & j & I & J & TP).
    pose proof (write_end_asked h p r _ I (RK _ I)) as Q. assert (WE : tpos t j + 1 <= write_end (WTrace sz t trc prm skip)); [|lia].
    destruct t as [o n|l]; cbn [tpos tcount write_end] in *; [lia|]. pose proof (zmax_in (map (Z.add 1) l) (1 + nth (Z.to_nat j) l 0) ltac:(apply in_map, nth_In; lia)). lia. }
  destruct (TI 0%nat P) as (_ & TN). rewrite L4 in TN.
  exists f', rd'. split; [apply W|]. split; [rewrite SZ, AN; reflexivity|]. split; [exact O|]. split; [exact Q1|]. split; [congruence|]. split; [|split; [exact W|split; [exact CF|exact CV]]].
  destruct (Q5 us ltac:(lia)) as (_ & _ & Q6); [rewrite TN; exact FI|rewrite TN; exact BI|]. rewrite Q6 by (rewrite TN; exact US2). exact TN.
Qed.
(** The life of the output file. *)
Lemma set_life h f0 maxSize' sizes' (sizes : nat -> nat -> nat -> list Z) : (0 < p)%nat -> 0 < nt -> fits nt ns -> file_bytes f0 -> 3600 <= maxSize' ->
  (forall x, In x h -> (fst x < p)%nat) ->
  (forall r, (r < p)%nat -> set_calls maxSize (sizes r) rl srt outmsg g fds p r = Some (rank_ops h r)) ->
  exists f' rd', write_file maxSize p h f0 = Some f' /\ fsize f' = 3600 + nt * (240 + 4 * ns) /\
  open_file maxSize' sizes' f' = Some rd' /\ r_ns rd' = ns /\ r_nt rd' = nt /\ r_inc rd' = inc /\ written_file maxSize p h f0 f' nt ns /\
  (forall x, In x h -> call_full source_of ns rl (snd x)) /\
  (forall b, 0 <= b < nt -> exists r sizes t trc prm skip j, In (r, WTrace sizes t trc prm skip) h /\ 0 <= j < tcount t /\ tpos t j = b).
Proof.
  intros P NT F FB0 M' RK RUN.
  set (wr := fun r => skipn 3 (rank_ops h r)). set (ann := set_announcements ns inc outmsg).
  assert (WS : forall r, (r < p)%nat -> rank_ops h r = ann ++ wr r /\
    length (wr r) = list_sum (map (fun k => ceil_div (set_biggest p fds k) (Z.to_nat (max_block ns (paramMem rl)))) (seq 0 (length g))) /\
    (forall o, In o (wr r) -> good_write nt ns o /\ call_full source_of ns rl o) /\
    (forall k j, (k < length g)%nat -> (j < length (f_ilst (nth k (fds r) no_fd)))%nat -> exists o, In o (wr r) /\ moved o (nth j (f_olst (nth k (fds r) no_fd)) 0))).
  { intros r R. destruct (output_calls (sizes r) r R) as (ws & E & Q). rewrite (RUN r R) in E. injection E as E. assert (EW : wr r = ws) by (unfold wr; rewrite E; reflexivity). rewrite EW. split; [exact E|exact Q]. }
  apply (calls_life (call_full source_of ns rl) wr); try assumption. intros o [<-|[<-|[<-|[]]]]; exact Logic.I.
Qed.
Lemma source_bytes_ok b : file_bytes (fst (source_of b)).
Proof.
  unfold source_of. destruct (src b) as (k, a). cbn [fst]. destruct (Nat.ltb_spec k (length g)) as [L|L].
  - apply (GI _ (nth_In _ _ L)).
  - rewrite nth_overflow by exact L. clear L. destruct g as [|x g']; [contradiction|]. cbn [hd]. apply (GI x). left. reflexivity.
Qed.
End Output.

(** Samples that agree as numbers agree as bytes. *)
Lemma sample_bytes f f' ns a b x : (forall k, 0 <= k < ns -> disk_sample f' ns b k = disk_sample f ns a k) ->
  (forall x, 0 <= x < 4 * ns -> is_byte (fbyte f' (trace_at ns b + 240 + x))) -> file_bytes f -> 0 <= x < 4 * ns ->
  fbyte f' (trace_at ns b + 240 + x) = fbyte f (trace_at ns a + 240 + x).
Proof.
  intros E B' B X. pose proof (Z.div_mod x 4 ltac:(lia)) as DM. pose proof (Z.mod_pos_bound x 4 ltac:(lia)) as MB. set (k := x / 4) in *. set (q := x mod 4) in *.
  assert (K : 0 <= k < ns) by lia. specialize (E k K). unfold disk_sample in E. cbv zeta in E.
  pose proof (B' (4 * k) ltac:(lia)) as U0. pose proof (B' (4 * k + 1) ltac:(lia)) as U1. pose proof (B' (4 * k + 2) ltac:(lia)) as U2. pose proof (B' (4 * k + 3) ltac:(lia)) as U3.
  rewrite Z.add_assoc in U1. rewrite Z.add_assoc in U2. rewrite Z.add_assoc in U3.
  pose proof (B (trace_at ns a + 240 + 4 * k)) as V0. pose proof (B (trace_at ns a + 240 + 4 * k + 1)) as V1. pose proof (B (trace_at ns a + 240 + 4 * k + 2)) as V2. pose proof (B (trace_at ns a + 240 + 4 * k + 3)) as V3.
  unfold is_byte in *. rewrite DM. clear DM X. clearbody k q.
  assert (Q : q = 0 \/ q = 1 \/ q = 2 \/ q = 3) by lia. destruct Q as [Q|[Q|[Q|Q]]]; subst q; rewrite ?Z.add_assoc, ?Z.add_0_r; lia.
Qed.

(** ---- the rule of a plain set ---- *)
Lemma set_rule_usable : usable set_rule.
Proof. apply predefined_usable. apply pre_new. Qed.
Lemma set_rule_good : good set_rule. Proof. apply newRule_good. Qed.
Lemma set_rule_label : exists e, lookup 1 (translate set_rule) = Some e /\ e_type e = MIndex.
Proof. eexists. split; [vm_compute; reflexivity|reflexivity]. Qed.
Lemma set_rule_copy : counts set_rule MCopy <> 0. Proof. vm_compute. discriminate. Qed.
Lemma set_rule_mem : 0 <= paramMem set_rule <= 100000000. Proof. vm_compute. split; discriminate. Qed.
Lemma set_rule_untouched x : untouched set_rule x.
Proof.
  intros k e a I A. change (translate set_rule) with [(0, mkEntry MCopy 0 0 0); (1, mkEntry MIndex 1 0 0); (2, mkEntry MIndex 0 0 0)] in I. destruct I as [I|[I|[I|[]]]]; injection I as _ <-; destruct A.
Qed.

(** ---- the positions after adding files ---- *)
Fixpoint locate (k : nat) (nts : list Z) (b : Z) : nat * Z :=
  match nts with [] => (k, b) | n :: nts => if b <? n then (k, b) else locate (S k) nts (b - n) end.
Lemma locate_spec : forall nts k0 k i, Forall (fun n => 0 <= n) nts -> (k < length nts)%nat -> 0 <= i < nth k nts 0 -> locate k0 nts (zsum (firstn k nts) + i) = ((k0 + k)%nat, i).
Proof.
  induction nts as [|n nts IH]; intros k0 k i F K I; [cbn in K; lia|]. inversion F as [|? ? F1 F2]; subst. destruct k as [|k]; cbn [firstn nth] in *.
  - cbn [locate]. change (zsum []) with 0. replace (0 + i <? n) with true by lia. f_equal; lia.
  - cbn [locate]. change (zsum (n :: firstn k nts)) with (n + zsum (firstn k nts)).
    assert (0 <= zsum (firstn k nts)). { clear -F2. revert k. induction F2 as [|x l X F IH]; intros [|k]; cbn [firstn]; try (cbn; lia). specialize (IH k). unfold zsum in *. cbn [fold_right]. lia. }
    replace (n + zsum (firstn k nts) + i <? n) with false by lia. replace (n + zsum (firstn k nts) + i - n) with (zsum (firstn k nts) + i) by lia. rewrite IH by (first [assumption|cbn in K; lia]). f_equal. lia.
Qed.
Lemma located nts : Forall (fun n => 0 <= n) nts -> forall b, 0 <= b < zsum nts -> exists k i, (k < length nts)%nat /\ 0 <= i < nth k nts 0 /\ b = zsum (firstn k nts) + i.
Proof.
  induction 1 as [|n nts N F IH]; intros b B; [unfold zsum in B; cbn in B; lia|]. change (zsum (n :: nts)) with (n + zsum nts) in B. destruct (Z_lt_dec b n).
  - exists 0%nat, b. cbn. lia.
  - destruct (IH (b - n) ltac:(lia)) as (k & i & K & I & E). exists (S k), i. cbn [length nth firstn]. change (zsum (n :: firstn k nts)) with (n + zsum (firstn k nts)). lia.
Qed.
Lemma firstn_sum nts k : Forall (fun n => 0 <= n) nts -> (k < length nts)%nat -> 0 <= zsum (firstn k nts) /\ zsum (firstn k nts) + nth k nts 0 <= zsum nts.
Proof.
  intros F. revert k. induction F as [|n nts N F IH]; intros k K; [cbn in K; lia|]. assert (0 <= zsum nts) by (clear -F; induction F; [cbn; lia|unfold zsum in *; cbn [fold_right]; lia]).
  destruct k as [|k]; cbn [firstn nth]; change (zsum (n :: nts)) with (n + zsum nts); [change (zsum []) with 0; lia|]. change (zsum (n :: firstn k nts)) with (n + zsum (firstn k nts)). specialize (IH k ltac:(cbn in K; lia)). lia.
Qed.
Lemma nth_entries key p r d : forall nts off k, (k < length nts)%nat ->
  nth k ((fix go nts off := match nts with [] => [] | nt :: nts => entry p r (key, nt) off :: go nts (off + nt) end) nts off) d = entry p r (key, nth k nts 0) (off + zsum (firstn k nts)).
Proof.
  induction nts as [|n nts IH]; intros off k K; [cbn in K; lia|]. destruct k as [|k]; cbn [nth firstn].
  - change (zsum []) with 0. rewrite Z.add_0_r. reflexivity.
  - rewrite IH by (cbn in K; lia). change (zsum (n :: firstn k nts)) with (n + zsum (firstn k nts)). f_equal. lia.
Qed.
Lemma length_entries key p r : forall nts off, length ((fix go nts off := match nts with [] => [] | nt :: nts => entry p r (key, nt) off :: go nts (off + nt) end) nts off) = length nts.
Proof. induction nts as [|n nts IH]; intros off; [reflexivity|]. cbn [length]. f_equal. apply IH. Qed.
Lemma added_placed p key (fl : list (gkey * (reader * file))) :
  (0 < p)%nat -> Forall (fun x => in_u64 (r_nt (fst (snd x)))) fl -> (forall k, gsum k (map (fun x => (fst x, r_nt (fst (snd x)))) fl) < two64) ->
  let nts := map (fun x => r_nt (fst x)) (group_members key fl) in
  placed p (zsum nts) nts (group_files key fl p) (locate 0 nts).
Proof.
  intros P F B nts. set (fl' := map (fun x => (fst x, r_nt (fst (snd x)))) fl) in *.
  assert (F' : Forall (fun f => in_u64 (snd f)) fl') by (apply Forall_forall; intros x X; apply in_map_iff in X; destruct X as (y & <- & Y); apply (proj1 (Forall_forall _ _) F y Y)).
  assert (EN : map snd (filter (fun f => gkeqb (fst f) key) fl') = nts).
  { unfold nts, fl', group_members. clear. induction fl as [|x fl IH]; [reflexivity|]. cbn [map filter fst]. destruct (gkeqb (fst x) key); cbn [map snd]; [f_equal|]; exact IH. }
  assert (FN : Forall in_u64 nts) by (unfold nts; apply Forall_forall; intros x X; apply in_map_iff in X; destruct X as (y & <- & Y); apply in_map_iff in Y; destruct Y as (z & <- & Z1); apply filter_In in Z1; apply (proj1 (Forall_forall _ _) F z), Z1).
  assert (F0 : Forall (fun n => 0 <= n) nts) by (eapply Forall_impl; [|exact FN]; intros a (A & _); exact A).
  assert (GE : forall r, (r < p)%nat -> group_files key fl p r = (fix go nts off := match nts with [] => [] | nt :: nts => entry (Z.of_nat p) (Z.of_nat r) (key, nt) off :: go nts (off + nt) end) nts 0).
  { intros r R. unfold group_files. fold fl'. rewrite (add_files_spec (Z.of_nat p) (Z.of_nat r) fl') by (assumption || lia). rewrite group_entries, EN. reflexivity. }
  split.
  - intros r R. rewrite GE by exact R. apply length_entries.
  - intros r k R K. rewrite GE by exact R. rewrite nth_entries by exact K. cbv zeta. unfold entry. cbn [f_ilst f_olst fst snd]. rewrite !map_length. split; [reflexivity|].
    set (n := nth k nts 0). set (off := 0 + zsum (firstn k nts)). assert (N64 : in_u64 n) by (apply (proj1 (Forall_forall _ _) FN), nth_In; exact K).
    split.
    + apply FinFun.Injective_map_NoDup; [intros a b Q; lia|]. unfold zr. apply nodup_zrange.
    + intros j J. destruct (firstn_sum nts k F0 K) as (S1 & S2). fold n in S2.
      assert (NJ : forall g0 : Z -> Z, nth j (map g0 (zr (sz_of n (Z.of_nat p) (Z.of_nat r)))) 0 = g0 (Z.of_nat j)).
      { intros g0. rewrite (nth_indep _ 0 (g0 0)) by (rewrite map_length; exact J). rewrite map_nth. f_equal. unfold zr, zrange in *. rewrite map_length, seq_length in J. rewrite (nth_indep _ 0 (Z.of_nat 0)) by (rewrite map_length, seq_length; exact J). rewrite map_nth, seq_nth by exact J. reflexivity. }
      rewrite !NJ. unfold zr, zrange in J. rewrite map_length, seq_length in J. pose proof (off_sz_bound n (Z.of_nat p) (Z.of_nat r) (Z.of_nat j) N64 ltac:(lia) ltac:(lia) ltac:(apply in_zr; lia)) as OB.
      split; [unfold off; lia|]. split; [exact OB|]. unfold off. rewrite Z.add_0_l. rewrite locate_spec by (first [assumption|fold n; lia]). reflexivity.
  - intros b Hb. destruct (located nts F0 b Hb) as (k & i & K & I & E). set (n := nth k nts 0) in *. assert (N64 : in_u64 n) by (apply (proj1 (Forall_forall _ _) FN), nth_In; exact K).
    assert (IN : In i (flat_map (fun r => map (fun i => off_of n (Z.of_nat p) (Z.of_nat r) + i) (zr (sz_of n (Z.of_nat p) (Z.of_nat r)))) (seq 0 p))).
    { rewrite (pieces_tile n (Z.of_nat p) N64 ltac:(lia) p ltac:(lia)). rewrite off_p by (destruct N64; lia). apply in_zr. exact I. }
    apply in_flat_map in IN. destruct IN as (r & R & IM). apply in_seq in R. apply in_map_iff in IM. destruct IM as (j & EJ & J). apply in_zr in J.
    exists r, k, (Z.to_nat j). split; [lia|]. split; [exact K|]. cbv zeta. rewrite GE by lia. rewrite nth_entries by exact K. fold n. unfold entry. cbn [f_ilst f_olst fst snd].
    assert (LZ : (Z.to_nat j < length (zr (sz_of n (Z.of_nat p) (Z.of_nat r))))%nat) by (unfold zr, zrange; rewrite map_length, seq_length; lia).
    split; [rewrite map_length; exact LZ|]. rewrite (nth_indep _ 0 ((fun i => 0 + zsum (firstn k nts) + (off_of n (Z.of_nat p) (Z.of_nat r) + i)) 0)) by (rewrite map_length; exact LZ).
    rewrite (map_nth (fun i => 0 + zsum (firstn k nts) + (off_of n (Z.of_nat p) (Z.of_nat r) + i))).
    assert (NZ : nth (Z.to_nat j) (zr (sz_of n (Z.of_nat p) (Z.of_nat r))) 0 = j).
    { unfold zr, zrange in *. rewrite map_length, seq_length in LZ. rewrite (nth_indep _ 0 (Z.of_nat 0)) by (rewrite map_length, seq_length; exact LZ). rewrite map_nth, seq_nth by exact LZ. lia. }
    rewrite NZ. lia.
Qed.
