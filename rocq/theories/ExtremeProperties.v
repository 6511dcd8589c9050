(** C117: the minmax program on files. *)
From Coq Require Import Reals Lra Permutation Sorted.
From Flocq Require Import Core IEEE754.BinarySingleNaN Relative.
From Verif Require Import Base DecompModel DecompSpec DecompProofs NumEncModel NumEncSpec NumEncProofs CharEncModel CharEncProofs LayoutModel LayoutProofs DataIOModel DataIOProofs
  RuleModel RuleProofs DoubleModel ParamModel ParamProofs HeaderProofs ScalarProofs FileSpec FileModel FileProofs WriteSpec WriteProofs RuleProperties ParamProperties ReadProofs OpenProofs FileProperties TraceProperties.
From Verif Require Import SortSpec SortModel SortProofs CompProofs MinMaxModel MinMaxProofs MinMaxProperties FloatModel SetOpsModel ToolModel ToolProperties CopySpec CopyProofs CopyProperties ExampleModel ExampleProofs PieceProofs CreateProofs ModModel ModSpec ModProofs.
From Verif Require SetSortProofs VerifyProofs.
From Verif Require Import SetSortSpec ExtremeModel ExtremeSpec ExtremeProofs ExtremeRows.
Import ListNotations.
Open Scope Z_scope.

Lemma int32_ext h h' l : (forall x, l - 1 <= x <= l + 2 -> h x = h' x) -> int32_at h l = int32_at h' l.
Proof. intros H. unfold int32_at. rewrite !H by lia. reflexivity. Qed.
Lemma int16_ext h h' l : (forall x, l - 1 <= x <= l -> h x = h' x) -> int16_at h l = int16_at h' l.
Proof. intros H. unfold int16_at. rewrite !H by lia. reflexivity. Qed.
Lemma numbered_else n hd x : 8 <= x -> numbered n hd x = hd x.
Proof. intros X. unfold numbered. replace (x <? 8) with false by lia. rewrite andb_false_r. reflexivity. Qed.
Lemma rank_has h r o : In o (rank_ops h r) -> In (r, o) h.
Proof. unfold rank_ops. intros I. apply in_map_iff in I. destruct I as ((r', o') & <- & I). apply filter_In in I. cbn [fst snd] in I. destruct I as (I & E). apply Nat.eqb_eq in E. subst r'. exact I. Qed.
Lemma has_rank h r o : In (r, o) h -> In o (rank_ops h r).
Proof. intros I. unfold rank_ops. apply in_map_iff. exists (r, o). split; [reflexivity|]. apply filter_In. split; [exact I|apply Nat.eqb_refl]. Qed.
Lemma local_minmax sz inc : 0 <= sz -> disnormal inc = true -> let w := local [WNt sz; WNs 1; WInc inc] w_init in w_err w = false /\ w_nsSet w = true /\ w_ns w = 1 /\ w_inc w = inc.
Proof. intros S DN. cbn [local fold_left wlocal]. replace (32767 <? 1) with false by lia. rewrite DN. cbn [w_init w_err w_nsSet w_ns w_inc]. auto. Qed.

Section Program.
Context (srt : sorter) (SRT : std_sort srt) (maxSize : Z) (sizes0 : list Z) (f : file) (rd : reader) (RB : readable maxSize sizes0 f rd) (p : nat) (P : (0 < p)%nat) (sizes sizes2 sizes3 : nat -> list Z).
Let ns := r_ns rd.
Let nt := r_nt rd.
Lemma rank_program : exists N, length N = 12%nat /\ (forall k, 0 <= k < 12 -> is_extreme f ns nt (Z.even k) (extreme_field k) (nth (Z.to_nat k) N 0)) /\
  forall r, exists us o, let nums := match r with O => N | S _ => [] end in let sz := Z.of_nat (length nums) in
  minmax_calls srt maxSize sizes sizes2 sizes3 rd f p r = Some [WNt sz; WNs 1; WInc (r_inc rd); WTrace (sizes3 r) (Range 0 sz) (Some (mm_trace us nums)) (Some o) 0] /\
  wf_param o /\ p_rule o = default_rule /\ p_sz o = sz /\ (forall n, In n nums -> In n us) /\
  (nt <= 2147483648 -> forall i, 0 <= i < sz -> holds o i (numbered (nth (Z.to_nat i) nums 0) (disk_header f ns (nth (Z.to_nat i) nums 0)))).
Proof.
  destruct (rb_facts maxSize sizes0 f rd RB) as (F & HT & N64 & N0). fold ns nt in F, HT, N64, N0.
  assert (NB : nt < 2 ^ 63). { destruct F as (_ & NT0 & S64 & _). assert (nt * 240 <= nt * (240 + 4 * ns)) by (apply Z.mul_le_mono_nonneg_l; lia). unfold two64 in S64. change (2 ^ 63) with 9223372036854775808. lia. }
  destruct (twelve maxSize sizes0 f rd RB p sizes P (ra_nt _ _ _ _ RB)) as (es & E & L & X). fold ns nt in X. assert (LL : length (map snd es) = 12%nat) by (rewrite map_length; exact L). exists (map snd es). split; [exact LL|]. split; [exact X|].
  intros r. unfold minmax_calls. rewrite E. cbn [obind]. set (nums := match r with O => map snd es | S _ => [] end).
  assert (RG : forall n, In n nums -> 0 <= n < nt).
  { intros n I. assert (I' : In n (map snd es)) by (unfold nums in I; destruct r; [exact I|destruct I]). apply (In_nth _ _ 0) in I'. destruct I' as (k & K & <-). rewrite LL in K. destruct (X (Z.of_nat k) ltac:(lia)) as (B & _). rewrite Nat2Z.id in B. exact B. }
  destruct (C85_extremes Z srt (fun n => n) nums SRT) as (_ & _ & IFF). set (us := uniqlist srt nums) in *.
  destruct (read_chosen maxSize sizes0 f rd RB (sizes2 r) us) as (t & ET & WT & RT & ST & HTT); [apply Forall_forall; intros n I; apply RG, IFF, I|]. rewrite ET. cbn [obind]. clear ET.
  destruct (rows_written us t nums WT RT ST ltac:(intros n I; apply IFF; exact I) ltac:(intros n I; specialize (RG n I); lia)) as (o & EO & WO & RO & SO & HO). rewrite EO. cbn [obind].
  exists us, o. split; [reflexivity|]. split; [exact WO|]. split; [exact RO|]. split; [exact SO|]. split; [intros n I; apply IFF; exact I|].
  intros SM i I. destruct (HO i I) as (j & J & NJ & G5 & GO). set (n := nth (Z.to_nat i) nums 0) in *. assert (IN : In n nums) by (apply nth_In; lia).
  apply (numbered_holds o t i j n); try assumption; [specialize (RG n IN); lia|intros x; apply (ra_bytes _ _ _ _ RB)|]. pose proof (HTT j J) as Q. rewrite NJ in Q. exact Q.
Qed.
End Program.

(** C117: every process makes its four calls, whatever the file holds. *)
Theorem C117_minmax_runs :
  forall srt maxSize sizes0 f rd, std_sort srt -> readable maxSize sizes0 f rd ->
  forall p sizes sizes2 sizes3, (0 < p)%nat -> forall r, (r < p)%nat -> exists ops, minmax_calls srt maxSize sizes sizes2 sizes3 rd f p r = Some ops /\ length ops = 4%nat.
Proof.
  intros srt maxSize sizes0 f rd SRT RB p sizes sizes2 sizes3 P r R. destruct (rank_program srt SRT maxSize sizes0 f rd RB p P sizes sizes2 sizes3) as (N & _ & _ & Q). destruct (Q r) as (us & o & E & _). eexists. split; [exact E|reflexivity].
Qed.
Print Assumptions C117_minmax_runs.

(** C117: the output has twelve traces; trace k stands for a trace of the input with the
    smallest (even k) or the largest (odd k) of its coordinate in the whole file. *)
Theorem C117_extremes :
  forall srt maxSize sizes0 f rd, std_sort srt -> readable maxSize sizes0 f rd -> r_nt rd <= 2147483648 ->
  forall p h f0 maxSize' sizes' sizes sizes2 sizes3, (0 < p)%nat -> file_bytes f0 -> 3600 <= maxSize' -> (forall x, In x h -> (fst x < p)%nat) ->
  (forall r, (r < p)%nat -> minmax_calls srt maxSize sizes sizes2 sizes3 rd f p r = Some (rank_ops h r)) ->
  exists f' rd', write_file maxSize p h f0 = Some f' /\ fsize f' = 3600 + 12 * 244 /\
  open_file maxSize' sizes' f' = Some rd' /\ r_ns rd' = 1 /\ r_nt rd' = 12 /\ r_inc rd' = r_inc rd /\
  forall k, 0 <= k < 12 -> exists n, is_extreme f (r_ns rd) (r_nt rd) (Z.even k) (extreme_field k) n /\ stands_for f (r_ns rd) n f' k.
Proof.
  intros srt maxSize sizes0 f rd SRT RB SM p h f0 maxSize' sizes' sizes sizes2 sizes3 P FB0 M' RK RUN.
  destruct (rank_program srt SRT maxSize sizes0 f rd RB p P sizes sizes2 sizes3) as (N & LN & EX & PR). set (ns := r_ns rd) in *. set (nt := r_nt rd) in *.
  pose proof RB as [CO CB CS (CM & CM2) CN CT CI]. destruct (open_inv _ _ _ _ CM CB CS CO) as (_ & E2 & _). clear CO. set (us := int16_at (fbyte f) 3217) in *.
  assert (US : us <= 32767). { unfold us. rewrite int16_rd by apply CB. pose proof (rd16_range (fbyte f) (3217 - 1)) as Q. unfold in_s16 in Q. lia. }
  assert (DN : disnormal (r_inc rd) = true) by (rewrite E2; apply inc_normal; lia).
  assert (IV : fin (r_inc rd) /\ (Rabs (val (r_inc rd) - IZR us / 1000000) <= / 4000000)%R).
  { rewrite E2. destruct (inc_value us ltac:(lia)) as (FI & BI). split; [exact FI|]. eapply Rle_trans; [exact BI|].
    assert (K1 : (IZR us <= 32767)%R) by (apply IZR_le; lia). assert (K0 : (0 <= IZR us)%R) by (apply (IZR_le 0); lia).
    assert (S : (bpow radix2 (-51) <= bpow radix2 (-20))%R) by (apply bpow_le; lia). assert (U : (bpow radix2 (-20) = / 1048576)%R) by (cbn; lra). pose proof (bpow_gt_0 radix2 (-51)).
    eapply Rle_trans; [apply Rmult_le_compat_l; [lra|exact S]|]. rewrite U. lra. }
  destruct IV as (FI & BI).
  set (cnt := fun r : nat => match r with O => 12 | S _ => 0 end). set (nums := fun r : nat => match r with O => N | S _ => [] end).
  assert (CN' : forall r, Z.of_nat (length (nums r)) = cnt r) by (intros [|r]; unfold nums, cnt; [rewrite LN; reflexivity|reflexivity]).
  assert (OPS : forall r, (r < p)%nat -> exists us o, rank_ops h r = [WNt (cnt r); WNs 1; WInc (r_inc rd)] ++ [WTrace (sizes3 r) (Range 0 (cnt r)) (Some (mm_trace us (nums r))) (Some o) 0] /\
    wf_param o /\ p_rule o = default_rule /\ p_sz o = cnt r /\ (forall n, In n (nums r) -> In n us) /\
    forall i, 0 <= i < cnt r -> holds o i (numbered (nth (Z.to_nat i) (nums r) 0) (disk_header f ns (nth (Z.to_nat i) (nums r) 0)))).
  { intros r R. destruct (PR r) as (u & o & Q). cbv zeta in Q. change (match r with O => N | S _ => [] end) with (nums r) in Q. rewrite (CN' r), (RUN r R) in Q. destruct Q as (Q1 & Q2 & Q3 & Q4 & Q5 & Q6). exists u, o.
    split; [exact (f_equal (fun y => match y with Some x => x | None => [] end) Q1)|]. split; [exact Q2|]. split; [exact Q3|]. split; [exact Q4|]. split; [exact Q5|]. apply Q6. exact SM. }
  clear PR RUN.
  set (g := fun b => numbered (nth (Z.to_nat b) N 0) (disk_header f ns (nth (Z.to_nat b) N 0))).
  assert (HC : forall r, (r < p)%nat -> forall o, In o (rank_ops h r) -> call_copies (fun b => (shown g, b)) 1 default_rule o).
  { intros r R o I. destruct (OPS r R) as (u & q & E & W & RU & S & IN & H). rewrite E in I. apply in_app_or in I. destruct I as [[<-|[<-|[<-|[]]]]|[<-|[]]]; [exact Logic.I|exact Logic.I|exact Logic.I|].
    cbn [call_copies tcount tpos]. split; [exact W|]. split; [exact RU|]. split; [lia|]. split; [lia|]. intros j J. assert (R0 : r = O) by (destruct r; [reflexivity|unfold cnt in J; lia]). subst r. cbn [cnt nums] in *.
    split.
    - intros k K. replace (j * 1 + k) with j by lia. replace k with 0 by lia. rewrite shown_sample. apply one_sample; [|lia]. apply IN. apply nth_In. lia.
    - rewrite Z.add_0_r, Z.add_0_l. apply (holds_ext q j (g j)); [exact RU| |apply H; exact J]. intros x X. symmetry. apply shown_header. exact X. }
  assert (GW : forall r o, (r < p)%nat -> In o (skipn 3 (rank_ops h r)) -> good_write 12 1 o).
  { intros r o R I. destruct (OPS r R) as (u & q & E & W & RU & S & IN & H). rewrite E in I. cbn [app skipn] in I. destruct I as [<-|[]]. assert (0 <= cnt r <= 12) by (destruct r; cbn [cnt]; lia). unfold good_write. cbn [in_file write_fine].
    split; [lia|]. split; [lia|]. split; [intros m Q; injection Q as <-; apply trace_bytes|]. split; [left; discriminate|]. intros q' Q. injection Q as <-. cbn [tcount]. apply holds_insert; [exact W|lia|lia|].
    intros i I. eexists. rewrite Z.add_0_r. apply H. exact I. }
  destruct (ranks_life maxSize p h f0 12 1 (fun r => [WNt (cnt r); WNs 1; WInc (r_inc rd)]) (fun r => skipn 3 (rank_ops h r)) P CM) as ((f' & W) & TI); try assumption.
  { lia. }
  { unfold fits, two64. lia. }
  { intros r R. destruct (OPS r R) as (u & q & E & _). rewrite E. reflexivity. }
  { intros r o R [<-|[<-|[<-|[]]]] Q; exact Q. }
  { intros r n R [Q|[Q|[Q|[]]]]; try discriminate. injection Q as <-. destruct r; cbn [cnt]; lia. }
  { intros r R. destruct (local_minmax (cnt r) (r_inc rd) ltac:(destruct r; cbn [cnt]; lia) DN) as (L1 & L2 & L3 & _). auto. }
  { destruct (local_minmax (cnt 0%nat) (r_inc rd) ltac:(cbn [cnt]; lia) DN) as (_ & _ & _ & L4). unfold FileModel.header. rewrite L4, (inc_round (r_inc rd) us FI ltac:(lia) BI). cbn [obind]. eauto. }
  { intros r R. destruct (OPS r R) as (u & q & E & _). rewrite E. discriminate. }
  destruct (C40_header_round_trip_partial _ _ _ _ _ _ _ maxSize' sizes' W M') as (rd' & O & Q1 & Q2 & Q3 & Q4 & Q5).
  destruct (life _ _ _ _ _ _ _ W) as (f1 & hd & kk & _ & _ & _ & _ & AL & _ & _ & SZ & _).
  assert (AN : asked_by_all h p = 12).
  { apply Z.le_antisymm; [exact AL|]. unfold asked_by_all. etransitivity; [|apply (zmax_in _ (asked (rank_ops h 0)))].
    - destruct (OPS 0%nat P) as (u & q & E & _). rewrite E. unfold asked, announced. cbn [app fold_left cnt]. apply Z.le_max_l.
    - apply in_map_iff. exists 0%nat. split; [reflexivity|]. apply in_seq. clear -P. lia. }
  destruct (TI 0%nat P) as (_ & TN). destruct (local_minmax (cnt 0%nat) (r_inc rd) ltac:(cbn [cnt]; lia) DN) as (_ & _ & _ & L4). rewrite L4 in TN.
  exists f', rd'. split; [apply W|]. split; [rewrite SZ, AN; reflexivity|]. split; [exact O|]. clear O. split; [exact Q1|]. split; [congruence|]. split.
  { assert (X : r_inc rd' = w_inc (rank_state h 0)). { destruct (Q5 us ltac:(lia)) as (_ & _ & Q6); [rewrite TN; exact FI|rewrite TN; exact BI|]. apply Q6. rewrite TN. exact E2. } rewrite X. exact TN. }
  clear Q1 Q2 Q3 Q4 Q5 SZ AL TI TN L4. intros k K. exists (nth (Z.to_nat k) N 0). split; [apply EX; exact K|].
  pose proof (history_copies maxSize p h f0 f' 12 1 (fun b => (shown g, b)) default_rule W default_usable ltac:(vm_compute; reflexivity)) as HK. cbv beta iota in HK.
  destruct (HK ltac:(intros (r, o) X; apply (HC r (RK _ X)); apply has_rank; exact X) ltac:(intros b; apply shown_bytes; intros b' x; apply numbered_byte; intros y; apply CB) k) as (HS & HL & _ & HF).
  { destruct (OPS 0%nat P) as (u & q & E & _). do 6 eexists. exists k. split; [apply rank_has; rewrite E; apply in_or_app; right; left; reflexivity|]. cbn [tcount tpos cnt]. lia. }
  clear HK. set (n := nth (Z.to_nat k) N 0) in *.
  assert (IE : forall l, 1 <= l <= 237 -> int32_at (disk_header (shown g) 1 k) l = int32_at (numbered n (disk_header f ns n)) l) by (intros l L; apply int32_ext; intros x X; apply shown_header; lia).
  assert (I2 : forall l, 9 <= l <= 237 -> int32_at (disk_header (shown g) 1 k) l = int32_at (disk_header f ns n) l) by (intros l L; rewrite IE by lia; apply int32_ext; intros x X; apply numbered_else; lia).
  assert (I1 : int16_at (disk_header (shown g) 1 k) 71 = int16_at (disk_header f ns n) 71). { apply int16_ext. intros x X. rewrite shown_header by lia. apply numbered_else. lia. }
  constructor.
  - destruct (default_int 5 ltac:(cbn; tauto)) as (mm & e & LK & T & EL). pose proof (HL mm e LK T) as Q. rewrite EL, IE in Q by lia. rewrite Q. apply numbered_int. destruct (EX k K) as (B & _). fold n in B. lia.
  - rewrite HS by lia. apply shown_sample.
  - intros l L. assert (LC : In l copied_ints) by (right; exact L). destruct (default_int l LC) as (mm & e & LK & T & EL). pose proof (HL mm e LK T) as Q. rewrite EL in Q. rewrite Q. apply I2. destruct L as [<-|[<-|[<-|[]]]]; lia.
  - intros PL l L. destruct (default_coordinate l L) as (mm & e & LK & T & EL & SC). destruct (HF mm e LK T) as (_ & CO); [rewrite SC, I1; exact PL|]. rewrite EL, SC in CO. rewrite CO. unfold coordinate. rewrite I1, I2; [reflexivity|].
    destruct L as [<-|[<-|[<-|[<-|[<-|[<-|[]]]]]]]; lia.
Qed.
Print Assumptions C117_extremes.
(** A file of three traces whose source x differs from trace to trace. *)
Example C117_nonvacuous : exists rd, readable 4000 [] (source_file 250) rd /\ r_nt rd = 3 /\ r_nt rd <= 2147483648 /\ std_sort isort /\
  int32_at (disk_header (source_file 250) 2 1) 73 <> int32_at (disk_header (source_file 250) 2 0) 73 /\ plain_scale (int16_at (disk_header (source_file 250) 2 1) 71).
Proof.
  destruct C101_nonvacuous as (rd & [CO CB CS CM CN CT CF CI CMM] & T & N & _ & PL & _). exists rd. split; [constructor; assumption|]. clear CO. split; [exact T|]. split; [rewrite T; lia|]. split; [apply isort_std|]. split; [vm_compute; discriminate|exact PL].
Qed.
