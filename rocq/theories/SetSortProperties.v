(** C104: sorting a file of a set and writing it. *)
From Coq Require Import Reals Lra Permutation Sorted.
From Flocq Require Import Core IEEE754.BinarySingleNaN.
From Verif Require Import Base DecompModel DecompSpec DecompProofs NumEncModel NumEncSpec NumEncProofs CharEncModel CharEncProofs LayoutModel LayoutProofs DataIOModel DataIOProofs
  RuleModel RuleProofs DoubleModel ParamModel ParamProofs HeaderProofs ScalarProofs FileSpec FileModel FileProofs WriteSpec WriteProofs RuleProperties ParamProperties ReadProofs OpenProofs FileProperties TraceProperties.
From Verif Require Import SortSpec SortModel SortProofs CompProofs SortProperties FlowModel FlowProofs FlowProperties CopySpec CopyProofs CopyProperties ExampleModel ExampleProofs SetFileModel SetFileSpec SetFileProofs SetOutProofs SetSortModel SetSortSpec SetSortProofs.
Import ListNotations.
Open Scope Z_scope.

(** A set with one file of at least four traces per rank, sorted and written: the sort ends;
    all ranks make the same number of calls; and there is one rearrangement of the traces,
    in the order asked for (traces with equal keys in the order of the input), such that
    whatever the order in which the calls of the ranks take effect, the output has at
    every position the trace that belongs there. If all traces have the same coordinate
    scale and no offset is negative, the order is the order of the numbers in the
    headers. *)
Theorem C104_sorted_file : forall maxSize ns inc key rd f p type srt outmsg sizes0 (sizes : nat -> nat -> nat -> list Z),
  3600 <= maxSize -> 2 * (240 + 4 * ns) <= maxSize -> 0 <= ns <= 32767 -> (0 < p)%nat -> 4 * Z.of_nat p <= r_nt rd ->
  set_input maxSize ns inc (rd, f) -> std_sort srt -> 35 <= type <= 43 ->
  let nt := r_nt rd in let hdr a := disk_header f ns a in
  let sort fuel fuel2 := sort_set fuel fuel2 maxSize sizes0 srt type [(rd, f)] (group_files key [(key, (rd, f))] p) p in
  (exists n, forall fuel, (n <= fuel)%nat -> exists n2, forall fuel2, (n2 <= fuel2)%nat -> exists fds, sort fuel fuel2 = Some fds) /\
  forall fuel fuel2 fds, sort fuel fuel2 = Some fds ->
  let run r := set_calls maxSize (sizes r) sort_set_rule srt outmsg [(rd, f)] fds p r in
  (exists c, forall r, (r < p)%nat -> exists ws, run r = Some ws /\ length ws = c) /\
  exists perm, Permutation perm (zr nt) /\
  StronglySorted (fun a b => ~ lex (keys type (header_geo (hdr b) b)) (keys type (header_geo (hdr a) a))) perm /\
  (In type [35; 37; 39; 41; 43] -> (exists s, forall a, 0 <= a < nt -> int16_at (hdr a) 71 = s /\ 0 <= int32_at (hdr a) 37) ->
     StronglySorted (fun a b => lex (header_keys type (hdr a) a) (header_keys type (hdr b) b)) perm) /\
  forall h f0 maxSize' sizes', file_bytes f0 -> 3600 <= maxSize' -> (forall x, In x h -> (fst x < p)%nat) -> (forall r, (r < p)%nat -> run r = Some (rank_ops h r)) ->
  exists f' rd', write_file maxSize p h f0 = Some f' /\ fsize f' = 3600 + nt * (240 + 4 * ns) /\
  open_file maxSize' sizes' f' = Some rd' /\ r_ns rd' = ns /\ r_nt rd' = nt /\ r_inc rd' = inc /\
  forall b, 0 <= b < nt -> sorted_copy f (nth (Z.to_nat b) perm 0) f' b ns.
Proof.
  intros maxSize ns inc key rd f p type srt outmsg sizes0 sizes M1 M2 NS P FOUR SI SRT T nt hdr sort. pose proof SI as [(sz0 & OP) FB SZ NSE INC FM IV]. cbn [fst snd] in OP, FB, SZ, NSE, INC, FM, IV.
  destruct (open_fits _ _ _ _ M1 FB SZ OP ltac:(lia)) as (F & HT). destruct (open_inv _ _ _ _ M1 FB SZ OP) as (_ & _ & RF & _). rewrite NSE in F, HT. fold nt in F, HT.
  assert (FM' : r_format rd <> 1) by congruence.
  split; [apply (sort_defined maxSize ns nt rd f M2 NSE eq_refl F HT FB FM' p P key FOUR sizes0 srt type SRT T)|].
  intros fuel fuel2 fds S run.
  destruct (sort_result maxSize ns nt rd f M2 NSE eq_refl F HT FB FM' p P key FOUR fuel fuel2 sizes0 srt type fds SRT T S) as (perm & PM & SS & PL).
  set (g := [(rd, f)]). assert (G0 : g <> []) by discriminate. assert (GI : forall x, In x g -> set_input maxSize ns inc x) by (intros x [<-|[]]; exact SI).
  change [nt] with (map (fun x : reader * file => r_nt (fst x)) g) in PL. set (src := fun b => (0%nat, nth (Z.to_nat b) perm 0)) in PL.
  split; [|exists perm; split; [exact PM|split; [exact SS|split]]].
  - exists (3 + list_sum (map (fun k => ceil_div (set_biggest p fds k) (Z.to_nat (max_block ns (paramMem sort_set_rule)))) (seq 0 (length g))))%nat.
    intros r R. destruct (output_calls maxSize sort_set_rule srt outmsg g fds p ns nt inc src M1 M2 NS G0 GI PL sort_set_usable sort_set_good sort_set_label sort_set_copy sort_set_mem SRT (sizes r) r R) as (ws & E & L & _).
    exists (set_announcements ns inc outmsg ++ ws). split; [exact E|]. rewrite app_length, L. reflexivity.
  - intros TT (s & SC). assert (ND : NoDup perm) by (apply (Permutation_NoDup (Permutation_sym PM)); unfold zr; apply nodup_zrange).
    assert (IN : forall a, In a perm -> 0 <= a < nt) by (intros a A; apply in_zr, (Permutation_in _ PM), A). clear -SS SC TT ND IN FB.
    induction SS as [|a l SS IH Q]; [constructor|]. inversion ND as [|? ? N1 N2]; subst. constructor; [apply IH; [exact N2|intros; apply IN; right; assumption]|].
    rewrite Forall_forall in *. intros b B. specialize (Q b B). destruct (SC a (IN a (or_introl eq_refl))) as (A1 & A2). destruct (SC b (IN b (or_intror B))) as (B1 & B2).
    unfold of_trace in Q. fold (hdr a) in Q. fold (hdr b) in Q. unfold hdr in *. rewrite (header_lex f ns FB s type b a TT B1 A1 B2 A2) in Q.
    assert (NE : a <> b) by (intros ->; contradiction). clear -Q NE TT. unfold header_keys in *. destruct TT as [<-|[<-|[<-|[<-|[<-|[]]]]]]; cbn [app lex] in *;
      repeat match goal with |- (?x < ?y)%R \/ _ => destruct (Rtotal_order x y) as [?|[?|?]]; [left; assumption|right; split; [assumption|]|exfalso; apply Q; repeat first [left; lra|right; split; [lra|]]] end.
    all: apply NE, eq_IZR; assumption.
  - intros h f0 maxSize' sizes' FB0 M' RK RUN. assert (NT : 0 < nt) by lia.
    destruct (set_life maxSize sort_set_rule srt outmsg g fds p ns nt inc src M1 M2 NS G0 GI PL sort_set_usable sort_set_good sort_set_label sort_set_copy sort_set_mem SRT h f0 maxSize' sizes' sizes P NT F FB0 M' RK RUN)
      as (f' & rd' & W & SZ' & O & Q1 & Q2 & Q3 & WF & CF & CV).
    exists f', rd'. repeat (split; [assumption|]). intros b B.
    pose proof (history_full maxSize p h f0 f' nt ns _ sort_set_rule WF sort_set_usable sort_set_copy CF (fun b => source_bytes_ok maxSize g fds p ns nt inc src G0 GI PL b) b (CV b B)) as H.
    unfold source_of, src in H. cbn [nth g snd] in H. destruct H as (HS & _ & HH & HI & _ & HC).
    constructor; [constructor| |].
    + exact HS.
    + intros l L. destruct (sort_set_int l L) as (m & e & LK & ET & <-). apply (HI m e LK ET).
    + intros PS l L. destruct (sort_set_coordinate l L) as (m & e & LK & ET & <- & ES). destruct (HC m e LK ET) as (_ & Q); rewrite ES in *; [exact PS|exact Q].
    + intros PS. destruct sort_set_depth as (e & LK & ET & EL & ES). destruct (HC 19 e LK ET) as (_ & Q); rewrite ES in *; [exact PS|rewrite EL in Q; exact Q].
    + intros x X N. apply HH; [exact X|apply sort_set_untouched; assumption].
Qed.
Print Assumptions C104_sorted_file.

(** A file of eight traces on two ranks. *)
Definition eight_traces : file := mkFile 5584 (source_byte 250).
Example C104_nonvacuous : exists rd, set_input 4000 2 (r_inc rd) (rd, eight_traces) /\ r_nt rd = 8 /\ std_sort isort /\ 4 * Z.of_nat 2 <= r_nt rd /\
  forall a, 0 <= a < 8 -> int16_at (disk_header eight_traces 2 a) 71 = -100.
Proof.
  assert (FB : file_bytes eight_traces) by (apply (source_bytes 250); unfold is_byte; lia). assert (SZ : 3600 <= fsize eight_traces < two64) by (cbn [eight_traces fsize]; unfold two64; lia).
  destruct (open_total 4000 [] eight_traces ltac:(lia) FB ltac:(lia)) as (rd & E).
  { assert (Q : int16_at (fbyte eight_traces) 3221 = 2) by reflexivity. lia. }
  exists rd. destruct (open_inv 4000 [] eight_traces rd ltac:(lia) FB SZ E) as (A1 & A2 & A3 & A4 & A5 & _).
  assert (N : r_ns rd = 2) by (rewrite A1; reflexivity). assert (NT : r_nt rd = 8) by (rewrite A5, N; reflexivity).
  split; [constructor; cbn [fst snd]; [exists []; exact E|exact FB|exact SZ|exact N|reflexivity|vm_compute; discriminate|vm_compute; discriminate]|]. split; [exact NT|]. split; [apply isort_std|]. split; [rewrite NT; clear; lia|]. clear.
  intros a A. assert (C : a = 0 \/ a = 1 \/ a = 2 \/ a = 3 \/ a = 4 \/ a = 5 \/ a = 6 \/ a = 7) by lia. repeat (destruct C as [C|C]; [subst a; vm_compute; reflexivity|]). subst a. vm_compute. reflexivity.
Qed.
