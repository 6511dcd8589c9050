(** C74. *)
From Coq Require Import Sorted Permutation Lia.
From Verif Require Import Base DecompModel DecompSpec DecompProofs DataIOModel DataIOProofs SignalProofs UtilModel UtilSpec RepModel.
Import ListNotations.
Open Scope Z_scope.

Lemma origin_head fsz x : x < fsz -> 0 <= x -> hosz <= fsz -> origin fsz x = x.
Proof. intros X X0 H. unfold origin. destruct (Z.ltb_spec x hosz); [reflexivity|]. rewrite Z.mod_small by lia. lia. Qed.
Lemma origin_copy fsz q y : hosz <= y < fsz -> 0 <= q -> origin fsz ((fsz - hosz) * q + y) = y.
Proof.
  intros Y Q. unfold origin. assert (0 <= (fsz - hosz) * q) by (apply Z.mul_nonneg_nonneg; lia). destruct (Z.ltb_spec ((fsz - hosz) * q + y) hosz); [lia|].
  replace ((fsz - hosz) * q + y - hosz) with (y - hosz + q * (fsz - hosz)) by lia. rewrite Z.mod_add by lia. rewrite Z.mod_small by lia. lia.
Qed.
Lemma hosz_pos : 0 < hosz. Proof. reflexivity. Qed.
Lemma total_small fsz rep k y : hosz <= fsz -> 0 <= k < rep -> y < fsz -> (fsz - hosz) * k + y < total fsz rep.
Proof.
  intros F K Y. unfold total. assert ((fsz - hosz) * (k + 1) <= (fsz - hosz) * rep) by (apply Z.mul_le_mono_nonneg_l; lia). lia.
Qed.
Lemma split_pos fsz rep x : hosz < fsz -> fsz <= x < total fsz rep -> exists q y, 1 <= q < rep /\ hosz <= y < fsz /\ x = (fsz - hosz) * q + y.
Proof.
  intros F X. unfold total in X. set (P := fsz - hosz) in *. assert (PP : 0 < P) by (unfold P; lia). pose proof (Z.div_mod (x - hosz) P ltac:(lia)) as E. pose proof (Z.mod_pos_bound (x - hosz) P PP) as B.
  exists ((x - hosz) / P), (hosz + (x - hosz) mod P). split; [|split; unfold P in *; lia]. split.
  - apply Z.div_le_lower_bound; unfold P in *; lia.
  - apply Z.div_lt_upper_bound; lia.
Qed.
(** Files below 3600 bytes per rank (rank 0 does everything). *)
Theorem C74_small_partial : forall p fsz rep, 1 <= p -> hosz <= fsz -> 1 <= rep -> total fsz rep < two64 -> replicates fsz rep p (fun r => Some (smallCopy r fsz rep)).
Proof.
  intros p fsz rep P F R B. assert (NW : forall k, 0 <= k < rep - 1 -> u64 (hosz + u64 ((fsz - hosz) * (k + 1))) = (fsz - hosz) * (k + 1) + hosz).
  { intros k K. assert (H1 : 0 <= (fsz - hosz) * (k + 1)) by (apply Z.mul_nonneg_nonneg; lia). pose proof (Z.mul_le_mono_nonneg_l (k + 1) rep (fsz - hosz) ltac:(lia) ltac:(lia)). unfold total in B. pose proof hosz_pos. rewrite (u64_small ((fsz - hosz) * (k + 1))) by (unfold in_u64; lia). rewrite u64_small by (unfold in_u64; lia). lia. }
  split.
  - intros r RR. eexists. split; [reflexivity|]. unfold smallCopy. destruct (Z.eqb_spec r 0); [|constructor]. pose proof hosz_pos. constructor.
    + cbn [dst src len]. split; [lia|]. intros b BB. rewrite origin_head by lia. pose proof (total_small fsz rep 0 b F ltac:(lia) ltac:(lia)). lia.
    + apply Forall_forall. intros c C. apply in_map_iff in C. destruct C as (k & <- & K). apply in_zr' in K. cbn [dst src len]. rewrite NW by exact K. split; [lia|]. intros b BB.
      replace ((fsz - hosz) * (k + 1) + hosz + b) with ((fsz - hosz) * (k + 1) + (hosz + b)) by lia. rewrite origin_copy by lia. pose proof (total_small fsz rep (k + 1) (hosz + b) F ltac:(lia) ltac:(lia)). assert (0 <= (fsz - hosz) * (k + 1)) by (apply Z.mul_nonneg_nonneg; lia). lia.
  - intros x X. exists 0. eexists. destruct (Z.lt_ge_cases x fsz) as [L|L].
    + exists (mkCopy 0 0 fsz). split; [lia|]. split; [reflexivity|]. unfold smallCopy. cbn [Z.eqb dst len]. split; [left; reflexivity|lia].
    + destruct (Z.eq_dec hosz fsz) as [E|NE]; [unfold total in X; rewrite <- E in X; lia|]. destruct (split_pos fsz rep x ltac:(lia) ltac:(lia)) as (q & y & Q & Y & E). exists (mkCopy (u64 (hosz + u64 ((fsz - hosz) * (q - 1 + 1)))) hosz (fsz - hosz)). split; [lia|]. split; [reflexivity|]. unfold smallCopy. cbn [Z.eqb]. split; [right; apply in_map_iff; exists (q - 1); split; [reflexivity|apply in_zr'; lia]|]. cbn [dst len]. rewrite NW by lia. replace (q - 1 + 1) with q by lia. lia.
Qed.
Print Assumptions C74_small_partial.
(** The naive versions on files of one chunk. *)
Lemma chunks_one fsz step : 0 < fsz <= step -> chunks fsz step = [0].
Proof. intros H. unfold chunks. replace ((fsz + step - 1) / step) with 1; [reflexivity|]. apply (Z.div_unique _ _ 1 (fsz - 1)); lia. Qed.
Lemma naive_ok dec fsz p rep : hosz <= fsz -> 1 <= rep -> total fsz rep < two64 -> 1 <= p -> shares fsz p (fun r => dec fsz r 0) ->
  (forall d, dec fsz 0 0 = Some d -> hosz <= local_size d) -> forall step, fsz <= step ->
  replicates fsz rep p (fun r => all_chunks (naive_chunk dec fsz step r rep) (chunks fsz step)).
Proof.
  intros F R B P (SH1 & SH2 & _ & SH4 & SH5 & _) D0 step ST. pose proof hosz_pos as HP. rewrite chunks_one by lia.
  assert (GE : forall k, (Z.of_nat (S k) < p) -> forall d, dec fsz (Z.of_nat (S k)) 0 = Some d -> hosz <= global_offset d).
  { induction k as [|k IH]; intros K d E.
    - destruct (SH1 0 ltac:(lia)) as (d0 & E0 & _). pose proof (SH5 0 d0 d ltac:(lia) ltac:(lia) E0 E). rewrite (SH4 d0 E0) in H. specialize (D0 d0 E0). lia.
    - destruct (SH1 (Z.of_nat (S k)) ltac:(lia)) as (d0 & E0 & S0 & _). assert (E' : dec fsz (Z.of_nat (S k) + 1) 0 = Some d) by (rewrite <- E; f_equal; lia). pose proof (SH5 (Z.of_nat (S k)) d0 d ltac:(lia) ltac:(lia) E0 E'). specialize (IH ltac:(lia) d0 E0). lia. }
  assert (NW : forall k y, 0 <= k < rep - 1 -> 0 <= y <= fsz - hosz -> u64 (hosz + u64 ((fsz - hosz) * (k + 1)) + 0 + y) = (fsz - hosz) * (k + 1) + (hosz + y)).
  { intros k y K Y. assert (H1 : 0 <= (fsz - hosz) * (k + 1)) by (apply Z.mul_nonneg_nonneg; lia). pose proof (Z.mul_le_mono_nonneg_l (k + 2) rep (fsz - hosz) ltac:(lia) ltac:(lia)). unfold total in B. rewrite (u64_small ((fsz - hosz) * (k + 1))) by (unfold in_u64; lia). rewrite u64_small by (unfold in_u64; lia). lia. }
  (* what each rank writes *)
  assert (W : forall r, 0 <= r < p -> exists d s, dec fsz r 0 = Some d /\ s = Z.max hosz (global_offset d) /\ 0 <= global_offset d /\ 0 <= local_size d /\ global_offset d + local_size d <= fsz /\ s <= global_offset d + local_size d /\
     all_chunks (naive_chunk dec fsz step r rep) [0] = Some (mkCopy (global_offset d) (global_offset d) (local_size d) :: map (fun k => mkCopy ((fsz - hosz) * (k + 1) + s) s (global_offset d + local_size d - s)) (zr (rep - 1)))).
  { intros r RR. destruct (SH1 r RR) as (d & E & L0 & G0 & LE). exists d, (Z.max hosz (global_offset d)). split; [exact E|]. split; [reflexivity|]. split; [exact G0|]. split; [exact L0|]. split; [exact LE|].
    cbn [all_chunks]. unfold naive_chunk. destruct (Z.ltb_spec (0 + step) fsz); [lia|]. rewrite Z.sub_0_r, E. cbn [obind Z.eqb andb].
    destruct (Z.eqb_spec (global_offset d) 0) as [Z0|NZ].
    - assert (LH : hosz <= local_size d). { destruct (Z.eq_dec r 0) as [->|NR]; [apply D0, E|]. pose proof (GE (Z.to_nat (r - 1)) ltac:(lia) d) as G. replace (Z.of_nat (S (Z.to_nat (r - 1)))) with r in G by lia. specialize (G E). lia. }
      destruct (Z.ltb_spec (local_size d) hosz); [lia|]. cbn [andb]. rewrite Z0. rewrite Z.max_l by lia. split; [lia|]. cbn [obind]. rewrite app_nil_r. do 2 f_equal. apply map_ext_in. intros k K. apply in_zr' in K. rewrite NW by lia. f_equal; lia.
    - cbn [andb]. assert (GH : hosz <= global_offset d). { destruct (Z.eq_dec r 0) as [->|NR]; [rewrite (SH4 d E) in NZ; lia|]. pose proof (GE (Z.to_nat (r - 1)) ltac:(lia) d) as G. replace (Z.of_nat (S (Z.to_nat (r - 1)))) with r in G by lia. apply G, E. }
      rewrite Z.max_r by lia. split; [lia|]. cbn [obind]. rewrite app_nil_r. rewrite (u64_small (global_offset d - hosz)) by (unfold in_u64, total in *; assert (0 <= (fsz - hosz) * rep) by (apply Z.mul_nonneg_nonneg; lia); pose proof (Z.mul_le_mono_nonneg_l 1 rep (fsz - hosz) ltac:(lia) ltac:(lia)); lia).
      do 2 f_equal. apply map_ext_in. intros k K. apply in_zr' in K. rewrite NW by lia. f_equal; lia. }
  split.
  - intros r RR. destruct (W r RR) as (d & s & E & ES & G0 & L0 & LE & SL & EW). eexists. split; [exact EW|]. constructor.
    + cbn [dst src len]. split; [exact L0|]. intros b BB. rewrite origin_head by lia. pose proof (total_small fsz rep 0 (global_offset d + b) F ltac:(lia) ltac:(lia)). lia.
    + apply Forall_forall. intros c C. apply in_map_iff in C. destruct C as (k & <- & K). apply in_zr' in K. cbn [dst src len]. split; [lia|]. intros b BB.
      replace ((fsz - hosz) * (k + 1) + s + b) with ((fsz - hosz) * (k + 1) + (s + b)) by lia. rewrite origin_copy by lia. pose proof (total_small fsz rep (k + 1) (s + b) F ltac:(lia) ltac:(lia)). assert (0 <= (fsz - hosz) * (k + 1)) by (apply Z.mul_nonneg_nonneg; lia). lia.
  - intros x X. destruct (Z.lt_ge_cases x fsz) as [L|L].
    + destruct (SH2 x ltac:(lia)) as (r & (RR & d' & E' & IP) & _). destruct (W r RR) as (d & s & E & ES & G0 & L0 & LE & SL & EW). assert (d' = d) by congruence. subst d'. exists r. eexists. exists (mkCopy (global_offset d) (global_offset d) (local_size d)). split; [exact RR|]. split; [exact EW|]. split; [left; reflexivity|]. exact IP.
    + destruct (Z.eq_dec hosz fsz) as [E|NE]; [unfold total in X; rewrite <- E in X; lia|]. destruct (split_pos fsz rep x ltac:(lia) ltac:(lia)) as (q & y & Q & Y & EX).
      destruct (SH2 y ltac:(lia)) as (r & (RR & d' & E' & IP) & _). destruct (W r RR) as (d & s & E & ES & G0 & L0 & LE & SL & EW). assert (d' = d) by congruence. subst d'. unfold in_piece in IP. exists r. eexists. exists (mkCopy ((fsz - hosz) * (q - 1 + 1) + s) s (global_offset d + local_size d - s)). split; [exact RR|]. split; [exact EW|]. split; [right; apply in_map_iff; exists (q - 1); split; [reflexivity|apply in_zr'; lia]|]. cbn [dst len]. replace (q - 1 + 1) with q by lia. lia.
Qed.
(** naive1: every file of at most 1 GiB per rank (and the 3600 bytes per rank that
    select it). *)
Theorem C74_naive1_partial : forall p fsz rep, 1 <= p -> hosz <= fsz / p -> fsz <= rep_step p -> 1 <= rep -> total fsz rep < two64 -> replicates fsz rep p (fun r => makeSEGYCopyNaive true p r fsz rep).
Proof.
  intros p fsz rep P H ST R B. pose proof hosz_pos as HP. assert (FP : hosz <= fsz). { assert (fsz / p <= fsz); [|lia]. destruct (Z.lt_ge_cases fsz 0) as [N|N]; [exfalso; pose proof (Z.div_lt_upper_bound fsz p 0 ltac:(lia) ltac:(lia)); lia|]. apply Z.div_le_upper_bound; [lia|]. rewrite <- (Z.mul_1_l fsz) at 1. apply Z.mul_le_mono_nonneg_r; lia. }
  assert (F64 : in_u64 fsz). { unfold in_u64. pose proof (total_small fsz rep 0 (fsz - 1) FP ltac:(lia) ltac:(lia)). lia. }
  apply naive_ok; try assumption.
  - unfold naive_dec. apply block_decomposition_shares; [exact F64|lia].
  - unfold naive_dec. intros d E. rewrite block_decomposition_exact in E by (try exact F64; lia). injection E as <-. cbn [local_size]. destruct (0 <? fsz mod p); lia.
Qed.
Print Assumptions C74_naive1_partial.
(** naive2: the same for files of at least two blocks of 2 MiB (it cuts at block
    boundaries). *)
Lemma guard2 off sz : 0 <= off -> 2 * rep_bsz <= sz -> (rep_bsz - off mod rep_bsz) + (off + sz) mod rep_bsz <= sz.
Proof. intros O S. pose proof (Z.mod_pos_bound off rep_bsz ltac:(reflexivity)). pose proof (Z.mod_pos_bound (off + sz) rep_bsz ltac:(reflexivity)). lia. Qed.
Lemma off_ge1 k p : 2 <= k -> 1 <= p -> 1 <= off_of k p 1.
Proof.
  intros K P. pose proof (off_step k p 0 ltac:(lia) ltac:(lia)) as S. rewrite off_0 in S by lia. rewrite Z.add_0_l in S. rewrite S. unfold sz_of. pose proof (Z.div_mod k p ltac:(lia)) as E. pose proof (Z.mod_pos_bound k p ltac:(lia)). destruct (Z.ltb_spec 0 (k mod p)); [pose proof (Z.div_pos k p ltac:(lia) ltac:(lia)); lia|]. assert (k mod p = 0) by lia. assert (0 < k / p); [|lia]. apply Z.div_str_pos. split; [lia|]. apply Z.divide_pos_le; [lia|]. exists (k / p). lia.
Qed.
Theorem C74_naive2_partial : forall p fsz rep, 1 <= p -> 2 * rep_bsz <= fsz <= rep_step p -> 1 <= rep -> total fsz rep < two64 -> fsz + 2 * rep_bsz < two64 -> replicates fsz rep p (fun r => makeSEGYCopyNaive false p r fsz rep).
Proof.
  intros p fsz rep P (LO & ST) R B B2. pose proof hosz_pos as HP. assert (BS : rep_bsz = 2097152) by reflexivity. assert (HE : hosz = 3600) by reflexivity.
  pose proof (guard2 0 fsz ltac:(lia) LO) as G.
  apply naive_ok; try assumption; try lia.
  - unfold naive_dec. apply (blockDecomp_shares fsz rep_bsz p 0); try assumption; lia.
  - unfold naive_dec. intros d E. pose proof (blockDecomp_exact fsz rep_bsz p 0 0 ltac:(lia) ltac:(lia) ltac:(lia) ltac:(lia) B2 ltac:(lia) ltac:(lia) G) as EX. cbv zeta in EX. rewrite EX in E. injection E as <-. cbn [local_size].
    set (k := _ + 2). assert (K : 2 <= k). { unfold k. assert (0 <= (fsz - (rep_bsz - 0 mod rep_bsz) - (0 + fsz) mod rep_bsz) / rep_bsz); [apply Z.div_pos; lia|lia]. } clearbody k. rewrite off_0 by lia. rewrite ?Z.add_0_l. pose proof (off_ge1 k p K P) as O1. unfold bnd at 2. cbn [Z.eqb]. unfold bnd. destruct (Z.eqb_spec (off_of k p 1) 0); [lia|]. rewrite ?Z.mod_0_l by lia. rewrite ?Z.sub_0_r.
    assert (1 * rep_bsz <= off_of k p 1 * rep_bsz) by (apply Z.mul_le_mono_nonneg_r; lia). lia.
Qed.
Print Assumptions C74_naive2_partial.
(** Files larger than 1 GiB per rank: in the copies after the first, all chunks but the
    first are written 3600 bytes too far on. *)
Lemma all_chunks_in f : forall is l i, all_chunks f is = Some l -> In i is -> exists a, f i = Some a /\ incl a l.
Proof.
  induction is as [|j is IH]; intros l i H I; [destruct I|]. cbn [all_chunks] in H. destruct (f j) as [a|] eqn:E; [|discriminate H]. cbn [obind] in H. destruct (all_chunks f is) as [b|] eqn:E2; [|discriminate H]. cbn [obind] in H. injection H as <-. destruct I as [<-|I].
  - exists a. split; [exact E|apply incl_appl, incl_refl].
  - destruct (IH b i eq_refl I) as (a' & E' & IN). exists a'. split; [exact E'|apply incl_appr, IN].
Qed.
Lemma chunks_two fsz step : 0 < step < fsz -> In step (chunks fsz step).
Proof. intros H. unfold chunks. apply in_map_iff. exists 1. split; [lia|]. apply in_zr'. split; [lia|]. apply Z.lt_le_trans with 2; [lia|]. apply Z.div_le_lower_bound; lia. Qed.
Lemma shifted_wrong fsz step : step < fsz -> 2 * hosz < step -> hosz < fsz -> origin fsz (hosz + (fsz - hosz) * (0 + 1) + step) <> step.
Proof.
  intros S H F. unfold origin. set (P := fsz - hosz). pose proof hosz_pos. destruct (Z.ltb_spec (hosz + P * (0 + 1) + step) hosz); [unfold P in *; lia|]. replace (hosz + P * (0 + 1) + step - hosz) with (step + 1 * P) by lia. rewrite Z.mod_add by (unfold P; lia).
  destruct (Z.lt_ge_cases step P) as [L|L].
  - rewrite Z.mod_small by lia. lia.
  - replace (step mod P) with (step - P); [unfold P in *; lia|]. apply (Z.mod_unique _ _ 1); unfold P in *; lia.
Qed.
Theorem C74_large_refuted : forall blk p fsz rep, 1 <= p -> rep_step p < fsz -> 2 <= rep -> total fsz rep + hosz < two64 -> fsz + 2 * rep_bsz < two64 ->
  (blk = false -> rep_step p + 2 * rep_bsz <= fsz) -> ~ replicates fsz rep p (fun r => makeSEGYCopyNaive blk p r fsz rep).
Proof.
  intros blk p fsz rep P L R B B2 G (W & _). pose proof hosz_pos as HP. set (step := rep_step p) in *. assert (SE : 1073741824 <= step) by (unfold step, rep_step, rep_bsz; lia). assert (HE : hosz = 3600) by reflexivity.
  set (rb := if step + step <? fsz then step else fsz - step). assert (RB : 1 <= rb <= fsz) by (unfold rb; destruct (Z.ltb_spec (step + step) fsz); lia). assert (BS : rep_bsz = 2097152) by reflexivity.
  assert (FT : fsz <= total fsz rep). { unfold total. pose proof (Z.mul_le_mono_nonneg_l 1 rep (fsz - hosz) ltac:(lia) ltac:(lia)). lia. }
  assert (SH : shares rb p (fun r => naive_dec blk p rb r step)).
  { unfold naive_dec. destruct blk; [apply block_decomposition_shares; [unfold in_u64|]; lia|]. specialize (G eq_refl). assert (2 * rep_bsz <= rb) by (unfold rb; destruct (Z.ltb_spec (step + step) fsz); lia). apply (blockDecomp_shares rb rep_bsz p step); try lia; first [apply guard2; lia | unfold rb in *; destruct (Z.ltb_spec (step + step) fsz); lia]. }
  destruct SH as (_ & SH2 & _). destruct (SH2 0 ltac:(lia)) as (r & (RR & d & E & IP) & _). destruct (W r RR) as (l & EW & FA). unfold makeSEGYCopyNaive in EW. fold step in EW.
  destruct (all_chunks_in _ _ _ step EW (chunks_two fsz step ltac:(lia))) as (a & EA & IN). unfold naive_chunk in EA. fold rb in EA. rewrite E in EA. cbn [obind] in EA. destruct (Z.eqb_spec step 0); [lia|]. cbn [andb] in EA. injection EA as EA. unfold in_piece in IP.
  assert (IC : In (mkCopy (u64 (hosz + u64 ((fsz - hosz) * (0 + 1)) + step + global_offset d)) (step + global_offset d) (local_size d)) l).
  { apply IN. rewrite <- EA. right. apply in_map_iff. exists 0. split; [reflexivity|apply in_zr'; lia]. }
  rewrite Forall_forall in FA. destruct (FA _ IC) as (_ & FB). cbn [dst src len] in FB. specialize (FB (- global_offset d) ltac:(lia)). destruct FB as (FB1 & FB2).
  assert (G0 : global_offset d <= 0) by lia.
  assert (GG : global_offset d = 0).
  { destruct (Z.eq_dec (global_offset d) 0); [assumption|]. exfalso. unfold naive_dec in E. assert (0 <= global_offset d); [|lia]. destruct blk; [rewrite block_decomposition_exact in E by (unfold in_u64; lia); injection E as <-; cbn [global_offset]|].
    - pose proof (Z.div_pos rb p ltac:(lia) ltac:(lia)). pose proof (Z.mod_pos_bound rb p ltac:(lia)). assert (0 <= rb / p * r) by (apply Z.mul_nonneg_nonneg; lia). lia.
    - specialize (G eq_refl). assert (H2 : 2 * rep_bsz <= rb) by (unfold rb; destruct (Z.ltb_spec (step + step) fsz); lia). destruct (blockDecomp_shares rb rep_bsz p step ltac:(lia) ltac:(lia) ltac:(lia)) as ((S1 & _) & _); try lia; try (apply guard2; lia); try (unfold rb in *; destruct (Z.ltb_spec (step + step) fsz); lia). destruct (S1 r RR) as (d' & E' & _ & G' & _). rewrite E in E'. injection E' as <-. exact G'. }
  rewrite GG in FB2. pose proof (Z.mul_le_mono_nonneg_l 2 rep (fsz - hosz) ltac:(lia) ltac:(lia)). unfold total in B. rewrite (u64_small ((fsz - hosz) * (0 + 1))) in FB2 by (unfold in_u64; lia). rewrite u64_small in FB2 by (unfold in_u64; lia).
  replace (step + 0 + - 0) with step in FB2 by lia. replace (hosz + (fsz - hosz) * (0 + 1) + step + 0 + - 0) with (hosz + (fsz - hosz) * (0 + 1) + step) in FB2 by lia. symmetry in FB2. revert FB2. apply shifted_wrong; lia.
Qed.
Print Assumptions C74_large_refuted.
(** The hypotheses are met by concrete files. *)
Example C74_demo_small : replicates 10000 3 4 (fun r => Some (smallCopy r 10000 3)).
Proof. apply C74_small_partial; unfold two64, total, hosz; lia. Qed.
Example C74_demo_naive : forall blk, replicates 10000000 3 4 (fun r => makeSEGYCopyNaive blk 4 r 10000000 3).
Proof. intros [|]; [apply C74_naive1_partial|apply C74_naive2_partial]; unfold two64, total, hosz, rep_step, rep_bsz; lia. Qed.
Example C74_demo_large : forall blk, ~ replicates 8000000000 2 4 (fun r => makeSEGYCopyNaive blk 4 r 8000000000 2).
Proof. intros blk. apply C74_large_refuted; unfold two64, total, hosz, rep_step, rep_bsz; lia. Qed.
