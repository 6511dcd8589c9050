(** Properties C16-C24: the file access layer. *)
From Verif Require Import Base LayoutModel LayoutProofs DataIOModel DataIOProofs.

(** C16: a contiguous read delivers exactly the file's bytes, for every
    transfer limit and every size on the other ranks; memory outside is unchanged. *)
Theorem C16_contiguous_read :
  forall f maxSize sizes offset sz d m, 0 < maxSize -> 0 <= sz ->
  exists m', contig (read_step f) maxSize sizes offset sz d m = Some m' /\
  forall a, m' a = if (d <=? a) && (a <? d + sz) && (offset + (a - d) <? fsize f) then fbyte f (offset + (a - d)) else m a.
Proof. exact contig_read_exact. Qed.
Print Assumptions C16_contiguous_read.
Example C16_nonvacuous : (* limit of 3 bytes per transfer: 4 calls and one empty call *)
  let f := mkFile 100 (fun p => 7 * p) in
  (exists m', contig (read_step f) 3 [10; 14] 20 10 0 (fun _ => 0) = Some m' /\ m' 9 = 203 /\ m' 10 = 0) /\
  (exists cs, contigIO_calls 3 [10; 14] 20 10 0 1 1 = Some cs /\ length cs = 5%nat).
Proof. split; eexists; (split; [reflexivity|]); vm_compute; auto. Qed.

(** C17 *)
Theorem C17_contiguous_write :
  forall f maxSize sizes offset sz d m, 0 < maxSize -> 0 <= sz ->
  exists f', contig (write_step m) maxSize sizes offset sz d f = Some f' /\
  (forall j, 0 <= j < sz -> fbyte f' (offset + j) = m (d + j)) /\
  (forall q, q < offset \/ offset + sz <= q -> fbyte f' q = fbyte f q) /\
  fsize f' = (if 0 <? sz then Z.max (fsize f) (offset + sz) else fsize f).
Proof. exact contig_write_exact. Qed.
Print Assumptions C17_contiguous_write.
Example C17_nonvacuous :
  exists f', contig (write_step (fun a => a)) 3 [10; 14] 20 10 0 (mkFile 5 (fun _ => 255)) = Some f' /\
  fsize f' = 30 /\ fbyte f' 29 = 9 /\ fbyte f' 30 = 255.
Proof. eexists; (split; [reflexivity|]); vm_compute; auto. Qed.

(** C18: strided reads and writes move exactly the requested blocks. *)
Theorem C18_strided_read :
  forall f maxSize sizes offset bsz osz nb d m, 0 < osz <= maxSize -> 0 <= bsz -> 0 <= nb ->
  exists m', strided (read_step f) maxSize sizes offset bsz osz nb d m = Some m' /\
  (forall k j, 0 <= k < nb -> 0 <= j < bsz ->
     m' (d + bsz * k + j) = if offset + osz * k + j <? fsize f then fbyte f (offset + osz * k + j) else m (d + bsz * k + j)) /\
  (forall a, a < d \/ d + bsz * nb <= a -> m' a = m a).
Proof. exact strided_read_exact. Qed.
Print Assumptions C18_strided_read.
Theorem C18_strided_write :
  forall f maxSize sizes offset bsz osz nb d m, 0 < osz <= maxSize -> 0 <= bsz <= osz -> 0 <= nb ->
  exists f', strided (write_step m) maxSize sizes offset bsz osz nb d f = Some f' /\
  (forall k j, 0 <= k < nb -> 0 <= j < bsz -> fbyte f' (offset + osz * k + j) = m (d + bsz * k + j)) /\
  (forall q, (forall k j, 0 <= k < nb -> 0 <= j < bsz -> q <> offset + osz * k + j) -> fbyte f' q = fbyte f q) /\
  fsize f' = (if (0 <? nb) && (0 <? bsz) then Z.max (fsize f) (offset + osz * (nb - 1) + bsz) else fsize f).
Proof. exact strided_write_exact. Qed.
Print Assumptions C18_strided_write.
(** ... which is the same as separate contiguous accesses, one per block. *)
Theorem C18_strided_is_separate_accesses :
  forall (S : Type) (step : S -> Z -> Z -> S) maxSize sizes offset bsz osz (nb : nat) d s, 0 < osz <= maxSize -> 0 <= bsz ->
  strided step maxSize sizes offset bsz osz (Z.of_nat nb) d s =
  fold_left (fun os k => obind os (contig step maxSize [] (offset + osz * k) bsz (d + bsz * k))) (zrange nb) (Some s).
Proof.
  intros S step maxSize sizes offset bsz osz nb d s Ho Hb. rewrite strided_one by lia.
  rewrite call_blk, blocks_seq by exact Hb. generalize (zrange nb) as l. intros l. revert s.
  induction l as [|k l IH]; intros s; [reflexivity|]. cbn [fold_left obind]. rewrite contig_one by lia.
  rewrite <- IH. do 2 f_equal. apply call_ext. intros j Hj. apply viewpos_block. exact Hj.
Qed.
Print Assumptions C18_strided_is_separate_accesses.
Example C18_nonvacuous : (* 5 blocks of 2 bytes every 3 bytes, limit 7 bytes: 2 blocks per call *)
  exists f', strided (write_step (fun a => 100 + a)) 7 [5; 0] 10 2 3 5 0 (mkFile 12 (fun _ => 0)) = Some f' /\
  fsize f' = 24 /\ map (fbyte f') [9; 10; 11; 12; 13; 14; 22; 23; 24] = [0; 100; 101; 0; 102; 103; 108; 109; 0].
Proof. eexists; (split; [reflexivity|]); vm_compute; auto. Qed.

(** C19: list based reads and writes. *)
Theorem C19_list_read :
  forall f maxSize sizes bsz offs d m, 0 <= bsz -> 0 < maxSize -> 2 * bsz <= maxSize ->
  exists m', listio (read_step f) maxSize sizes bsz offs d m = Some m' /\
  (forall k j, (k < length offs)%nat -> 0 <= j < bsz ->
     m' (d + bsz * Z.of_nat k + j) = if nth k offs 0 + j <? fsize f then fbyte f (nth k offs 0 + j) else m (d + bsz * Z.of_nat k + j)) /\
  (forall a, a < d \/ d + bsz * Z.of_nat (length offs) <= a -> m' a = m a).
Proof. exact list_read_exact. Qed.
Print Assumptions C19_list_read.
Theorem C19_list_write :
  forall f maxSize sizes bsz offs d m, 0 <= bsz -> 0 < maxSize -> 2 * bsz <= maxSize ->
  (forall i k, (i < length offs)%nat -> (k < length offs)%nat -> i <> k ->
     nth i offs 0 + bsz <= nth k offs 0 \/ nth k offs 0 + bsz <= nth i offs 0) ->
  exists f', listio (write_step m) maxSize sizes bsz offs d f = Some f' /\
  (forall k j, (k < length offs)%nat -> 0 <= j < bsz -> fbyte f' (nth k offs 0 + j) = m (d + bsz * Z.of_nat k + j)) /\
  (forall q, (forall k j, (k < length offs)%nat -> 0 <= j < bsz -> q <> nth k offs 0 + j) -> fbyte f' q = fbyte f q) /\
  fsize f <= fsize f' /\
  (forall k, (k < length offs)%nat -> 0 < bsz -> nth k offs 0 + bsz <= fsize f') /\
  (forall b, fsize f <= b -> (forall k, (k < length offs)%nat -> nth k offs 0 + bsz <= b) -> fsize f' <= b).
Proof. exact list_write_exact. Qed.
Print Assumptions C19_list_write.
Theorem C19_list_is_separate_accesses :
  forall (S : Type) (step : S -> Z -> Z -> S) maxSize sizes bsz offs d s, 0 <= bsz -> 0 < maxSize -> 2 * bsz <= maxSize ->
  listio step maxSize sizes bsz offs d s =
  fold_left (fun os k => obind os (contig step maxSize [] (nth (Z.to_nat k) offs 0) bsz (d + bsz * k))) (zrange (length offs)) (Some s).
Proof.
  intros S step maxSize sizes bsz offs d s Hb Hm Hb2. rewrite listio_one by lia.
  rewrite call_blk, blocks_seq by exact Hb.
  assert (G : forall l s, (forall k, In k l -> 0 <= k) ->
    Some (fold_left (fun s k => mpi_call step (fun j => listpos offs bsz (bsz * k + j)) bsz (d + bsz * k) s) l s) =
    fold_left (fun os k => obind os (contig step maxSize [] (nth (Z.to_nat k) offs 0) bsz (d + bsz * k))) l (Some s)).
  { induction l as [|k l IH]; intros s' Hl; [reflexivity|]. cbn [fold_left obind]. rewrite contig_one by lia.
    rewrite <- IH by (intros; apply Hl; right; assumption). do 2 f_equal. apply call_ext. intros j Hj.
    apply listpos_block; [|exact Hj]. apply Hl. left; reflexivity. }
  apply G. intros k Hk. unfold zrange in Hk. apply in_map_iff in Hk. destruct Hk as (x & <- & _). lia.
Qed.
Print Assumptions C19_list_is_separate_accesses.
Example C19_nonvacuous :
  exists f', listio (write_step (fun a => 100 + a)) 9 [3; 1] 2 [30; 10; 20] 0 (mkFile 12 (fun _ => 0)) = Some f' /\
  fsize f' = 32 /\ map (fbyte f') [9; 10; 11; 12; 20; 21; 30; 31] = [0; 102; 103; 0; 104; 105; 100; 101].
Proof. eexists; (split; [reflexivity|]); vm_compute; auto. Qed.

(** C20: whatever the sizes on the ranks, any two ranks go through the same
    sequence of collective operations (gathers, view changes, transfers). *)
Theorem C20_contiguous_calls_match :
  forall maxSize sizes s1 s2, (forall x, In x sizes -> 0 <= x) -> In s1 sizes -> In s2 sizes -> 0 < maxSize ->
  exists e, contig_events maxSize sizes s1 = Some e /\ contig_events maxSize sizes s2 = Some e.
Proof. exact contig_events_same. Qed.
Print Assumptions C20_contiguous_calls_match.
Theorem C20_strided_calls_match :
  forall maxSize sizes bsz osz n1 n2,
  (forall x, In x sizes -> 0 <= x) -> In n1 sizes -> In n2 sizes -> 0 < osz <= maxSize -> 0 <= bsz ->
  exists e, strided_events maxSize sizes bsz osz n1 = Some e /\ strided_events maxSize sizes bsz osz n2 = Some e.
Proof. exact strided_events_same. Qed.
Print Assumptions C20_strided_calls_match.
Theorem C20_list_calls_match :
  forall maxSize sizes bsz s1 s2,
  (forall x, In x sizes -> 0 <= x) -> In s1 sizes -> In s2 sizes -> 0 < maxSize -> 0 <= bsz -> 2 * bsz <= maxSize ->
  exists e, list_events maxSize sizes bsz s1 = Some e /\ list_events maxSize sizes bsz s2 = Some e.
Proof. exact list_events_same. Qed.
Print Assumptions C20_list_calls_match.
Example C20_nonvacuous : (* a rank with 5 blocks and one with none: 3 steps each *)
  strided_events 7 [5; 0] 2 3 0 = strided_events 7 [5; 0] 2 3 5 /\
  strided_events 7 [5; 0] 2 3 5 = Some [Gather; SetView; Gather; IOAll; SetView; SetView; Gather; IOAll; SetView; SetView; Gather; IOAll; SetView].
Proof. split; reflexivity. Qed.

(** C21: no call moves more than the limit, the default limit fits an int and
    allows at least one trace of any legal length per call. *)
Theorem C21_call_sizes :
  (forall maxSize sizes offset sz d bsz osz cs c, 0 < osz <= maxSize -> 0 <= bsz <= osz -> 0 <= sz ->
     contigIO_calls maxSize sizes offset sz d bsz osz = Some cs -> In c cs ->
     0 <= c_count c /\ osz * c_count c <= maxSize /\ bsz * c_count c <= maxSize) /\
  (forall maxSize sizes bsz sz cs i c, 0 <= bsz -> 0 < maxSize -> 2 * bsz <= maxSize -> 0 <= sz ->
     listIO_calls maxSize sizes bsz sz = Some cs -> In (i, c) cs -> 0 <= c /\ bsz * c <= maxSize) /\
  default_maxSize <= 2147483647 /\
  (forall ns, 0 <= ns <= 32767 -> 0 < default_maxSize / getDOSz ns /\ 0 < listIO_max default_maxSize (getDOSz ns)).
Proof.
  split; [|split; [|split]].
  - intros maxSize sizes offset sz d bsz osz cs c Ho Hb Hs H Hin.
    destruct (contig_call_bounds _ _ _ _ _ _ _ _ _ Ho Hs H Hin) as (A & B). split; [exact A|]. split; [exact B|].
    assert (bsz * c_count c <= osz * c_count c) by (apply Z.mul_le_mono_nonneg_r; lia). lia.
  - intros maxSize sizes bsz sz cs i c Hb Hm Hb2 Hs H Hin.
    destruct (list_call_bounds _ _ _ _ _ _ _ Hb Hm Hb2 Hs H Hin) as (A & B). split; [exact A|].
    assert (0 <= bsz * c) by (apply Z.mul_nonneg_nonneg; lia). lia.
  - vm_compute. congruence.
  - intros ns Hns. rewrite getDOSz_exact by (unfold two64; lia). change default_maxSize with 536869888.
    unfold listIO_max. split; apply Z.div_str_pos; [lia|]. destruct (Z.eqb_spec (240 + 4 * ns) 0); lia.
Qed.
Print Assumptions C21_call_sizes.
Example C21_nonvacuous : default_maxSize = 536869888 /\
  exists cs, contigIO_calls 10 [7] 0 7 0 2 4 = Some cs /\ length cs = 4%nat.
Proof. split; [reflexivity|]. eexists. split; reflexivity. Qed.

(** C22: contiguous and strided transfers report errors ... *)
Theorem C22_contiguous_errors_logged_partial :
  forall view io, io <> 0 -> contigIO_logs io = true /\ iov_logs view io = true.
Proof. intros view io H. unfold iov_logs, contigIO_logs. destruct (Z.eqb_spec io 0); [contradiction|]. rewrite orb_true_r. auto. Qed.
Print Assumptions C22_contiguous_errors_logged_partial.
(** ... list based transfers do not: any failure of the transfer itself is lost. *)
Theorem C22_list_errors_lost_refuted :
  forall io, listIO_logs 0 io 0 0 = false.
Proof. intros io. reflexivity. Qed.
Print Assumptions C22_list_errors_lost_refuted.
Example C22_nonvacuous : contigIO_logs 35 = true /\ listIO_logs 0 35 0 0 = false.
Proof. split; reflexivity. Qed.

(** C23: access by range equals access by the list of the same traces, for
    whole traces, headers only and samples only, reading or writing. *)
Theorem C23_range_equals_list :
  forall (S : Type) (step : S -> Z -> Z -> S) maxSize sizes sizes' offset ns nt sz d s,
  2 * (240 + 4 * ns) <= maxSize -> fits nt ns -> 0 <= offset < nt -> 0 <= sz -> offset + sz <= nt ->
  let l := map (Z.add offset) (zrange (Z.to_nat sz)) in
  objDO step maxSize sizes offset ns sz d s = objDO_list step maxSize sizes' l ns d s /\
  objDOMD step maxSize sizes offset ns sz d s = objDOMD_list step maxSize sizes' l ns d s /\
  objDODF step maxSize sizes offset ns sz d s = objDODF_list step maxSize sizes' l ns d s.
Proof.
  intros. split; [|split].
  - apply (range_is_list_DO step maxSize sizes sizes' offset ns nt); assumption || lia.
  - apply (range_is_list_DOMD step maxSize sizes sizes' offset ns nt); assumption || lia.
  - apply (range_is_list_DODF step maxSize sizes sizes' offset ns nt); assumption || lia.
Qed.
Print Assumptions C23_range_equals_list.
Example C23_nonvacuous : 2 * (240 + 4 * 32767) <= default_maxSize /\ fits 10 32767 /\
  exists m, objDODF (read_step (mkFile 9000 (fun p => p))) 5000 [3] 2 100 3 0 (fun _ => 0) = Some m /\ m 400 = 3600 + 3 * 640 + 240.
Proof. split; [vm_compute; congruence|]. split; [unfold fits; vm_compute; intuition congruence|]. eexists. split; vm_compute; reflexivity. Qed.

(** C24: a full read is a header read plus a sample read ... *)
Theorem C24_full_read_is_headers_and_samples :
  forall f maxSize sizes offset ns nt sz (m mmd mdf : mem),
  240 + 4 * ns <= maxSize -> fits nt ns -> getFileSz nt ns <= fsize f -> 0 <= offset < nt -> 0 <= sz -> offset + sz <= nt ->
  exists mf mh ms,
    objDO (read_step f) maxSize sizes offset ns sz 0 m = Some mf /\
    objDOMD (read_step f) maxSize sizes offset ns sz 0 mmd = Some mh /\
    objDODF (read_step f) maxSize sizes offset ns sz 0 mdf = Some ms /\
    (forall i j, 0 <= i < sz -> 0 <= j < 240 -> mf (i * (240 + 4 * ns) + j) = mh (i * 240 + j)) /\
    (forall i j, 0 <= i < sz -> 0 <= j < 4 * ns -> mf (i * (240 + 4 * ns) + 240 + j) = ms (i * (4 * ns) + j)).
Proof. exact full_read_is_parts. Qed.
Print Assumptions C24_full_read_is_headers_and_samples.
Theorem C24_full_write_is_headers_and_samples :
  forall f maxSize sizes offset ns nt sz (m mh ms : mem),
  240 + 4 * ns <= maxSize -> fits nt ns -> 0 <= offset < nt -> 0 <= sz -> offset + sz <= nt ->
  (forall i j, 0 <= i < sz -> 0 <= j < 240 -> m (i * (240 + 4 * ns) + j) = mh (i * 240 + j)) ->
  (forall i j, 0 <= i < sz -> 0 <= j < 4 * ns -> m (i * (240 + 4 * ns) + 240 + j) = ms (i * (4 * ns) + j)) ->
  exists ff fh fd,
    objDO (write_step m) maxSize sizes offset ns sz 0 f = Some ff /\
    objDOMD (write_step mh) maxSize sizes offset ns sz 0 f = Some fh /\
    objDODF (write_step ms) maxSize sizes offset ns sz 0 fh = Some fd /\
    forall x, fbyte fd x = fbyte ff x.
Proof. exact full_write_is_parts. Qed.
Print Assumptions C24_full_write_is_headers_and_samples.
(** ... header-only writes change neither samples nor the file header, and
    sample-only writes change neither trace headers nor the file header. *)
Theorem C24_separate_writes :
  forall f maxSize sizes offset ns nt sz m d i x,
  240 + 4 * ns <= maxSize -> fits nt ns -> 0 <= offset < nt -> 0 <= sz -> offset + sz <= nt -> 0 <= i < nt ->
  (in_region ns (Samples i) x \/ x < 3600 ->
   exists f', objDOMD (write_step m) maxSize sizes offset ns sz d f = Some f' /\ fbyte f' x = fbyte f x) /\
  (in_region ns (Metadata i) x \/ x < 3600 ->
   exists f', objDODF (write_step m) maxSize sizes offset ns sz d f = Some f' /\ fbyte f' x = fbyte f x).
Proof.
  intros. split; intros.
  - apply (md_write_keeps_samples f maxSize sizes offset ns nt sz m d i x); assumption || lia.
  - apply (df_write_keeps_headers f maxSize sizes offset ns nt sz m d i x); assumption || lia.
Qed.
Print Assumptions C24_separate_writes.
Example C24_nonvacuous : 240 + 4 * 100 <= 5000 /\ fits 6 100 /\ getFileSz 6 100 <= fsize (mkFile 9000 (fun p => p)) /\
  in_region 100 (Samples 3) 5800.
Proof. unfold fits, in_region. vm_compute. intuition congruence. Qed.
