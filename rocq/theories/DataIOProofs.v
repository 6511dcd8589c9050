From Verif Require Import Base DecompProofs LayoutModel LayoutProofs DataIOModel.

(** ---- ranges ---- *)

Lemma seq_shift_n n a : forall len, seq (n + a) len = map (Nat.add n) (seq a len).
Proof.
  intros len. revert a. induction len; intros a; [reflexivity|].
  cbn [seq map]. f_equal. rewrite <- IHlen. f_equal. lia.
Qed.
Lemma zr_app n1 n2 : 0 <= n1 -> 0 <= n2 -> zr (n1 + n2) = zr n1 ++ map (Z.add n1) (zr n2).
Proof.
  intros H1 H2. unfold zr, zrange. rewrite Z2Nat.inj_add, seq_app, map_app by lia. f_equal.
  cbn [Nat.add]. rewrite <- (Nat.add_0_r (Z.to_nat n1)) at 1. rewrite seq_shift_n, !map_map.
  apply map_ext. intros a. lia.
Qed.
Lemma in_zr x n : In x (zr n) <-> 0 <= x < n.
Proof.
  unfold zr, zrange. rewrite in_map_iff. split.
  - intros (k & <- & H). apply in_seq in H. lia.
  - intros H. exists (Z.to_nat x). split; [lia|]. apply in_seq. lia.
Qed.
Lemma zr_neg n : n <= 0 -> zr n = [].
Proof. intros. unfold zr, zrange. replace (Z.to_nat n) with 0%nat by lia. reflexivity. Qed.

Lemma fold_left_ext_in {A B} (f g : A -> B -> A) l : (forall a b, In b l -> f a b = g a b) ->
  forall a, fold_left f l a = fold_left g l a.
Proof.
  induction l as [|x l IH]; intros H a; [reflexivity|]. cbn [fold_left].
  rewrite H by (left; reflexivity). apply IH. intros; apply H; right; assumption.
Qed.
Lemma fold_left_map' {A B C} (f : A -> C -> A) (h : B -> C) l : forall a,
  fold_left f (map h l) a = fold_left (fun a b => f a (h b)) l a.
Proof. induction l; intros; [reflexivity|]. cbn. apply IHl. Qed.

(** ---- transfers of index ranges ---- *)
Definition blk {S} (step : S -> Z -> Z -> S) (P : Z -> Z) (lo n d : Z) (s : S) : S :=
  fold_left (fun s j => step s (P j) (d + j)) (map (Z.add lo) (zr n)) s.

Lemma blk_app {S} (step : S -> Z -> Z -> S) P lo n1 n2 d s : 0 <= n1 -> 0 <= n2 ->
  blk step P lo (n1 + n2) d s = blk step P (lo + n1) n2 d (blk step P lo n1 d s).
Proof.
  intros. unfold blk. rewrite zr_app, map_app, fold_left_app by assumption. f_equal.
  rewrite map_map. apply map_ext. intros; lia.
Qed.
Lemma blk_0 {S} (step : S -> Z -> Z -> S) P lo n d s : n <= 0 -> blk step P lo n d s = s.
Proof. intros. unfold blk. rewrite zr_neg by assumption. reflexivity. Qed.
Lemma blk_1 {S} (step : S -> Z -> Z -> S) P lo d s : blk step P lo 1 d s = step s (P lo) (d + lo).
Proof. unfold blk. change (zr 1) with [0]. cbn [map fold_left]. rewrite Z.add_0_r. reflexivity. Qed.
Lemma call_blk {S} (step : S -> Z -> Z -> S) P n d s : mpi_call step P n d s = blk step P 0 n d s.
Proof.
  unfold mpi_call, blk. rewrite fold_left_map'. apply fold_left_ext_in. intros a b _. reflexivity.
Qed.
Lemma call_shift {S} (step : S -> Z -> Z -> S) pos P lo n d d' s :
  (forall j, 0 <= j < n -> pos j = P (lo + j)) -> d' = d + lo ->
  mpi_call step pos n d' s = blk step P lo n d s.
Proof.
  intros H ->. unfold mpi_call, blk. rewrite fold_left_map'. apply fold_left_ext_in.
  intros a j Hj. apply in_zr in Hj. rewrite H by exact Hj. f_equal. lia.
Qed.
Lemma call_ext {S} (step : S -> Z -> Z -> S) pos pos' n d s :
  (forall j, 0 <= j < n -> pos j = pos' j) -> mpi_call step pos n d s = mpi_call step pos' n d s.
Proof.
  intros H. unfold mpi_call. apply fold_left_ext_in. intros a j Hj. apply in_zr in Hj. rewrite H by exact Hj. reflexivity.
Qed.

(** ---- chunk lists ---- *)
Lemma chunk_run {S} (step : S -> Z -> Z -> S) P u d max : 0 <= u -> 0 < max -> forall fuel i sz s,
  0 <= i -> sz - i <= Z.of_nat fuel ->
  fold_left (fun s ic => blk step P (u * fst ic) (u * snd ic) d s) (chunk_from fuel i sz max) s
  = blk step P (u * i) (u * (sz - i)) d s.
Proof.
  intros Hu Hm. induction fuel as [|fuel IH]; intros i sz s Hi Hf; cbn [chunk_from].
  - cbn [fold_left]. rewrite blk_0; [reflexivity|]. apply Z.mul_nonneg_nonpos; lia.
  - destruct (Z.ltb_spec i sz) as [L|G].
    + cbn [fold_left fst snd]. rewrite IH by lia.
      destruct (Z_le_gt_dec (sz - i) max) as [C|C].
      * rewrite Z.min_l by exact C. rewrite blk_0; [reflexivity|]. apply Z.mul_nonneg_nonpos; lia.
      * rewrite Z.min_r by lia.
        replace (u * (sz - i)) with (u * max + u * (sz - (i + max))) by lia.
        rewrite blk_app by (apply Z.mul_nonneg_nonneg; lia).
        replace (u * (i + max)) with (u * i + u * max) by lia. reflexivity.
    + cbn [fold_left]. rewrite blk_0; [reflexivity|]. apply Z.mul_nonneg_nonpos; lia.
Qed.
Lemma chunks_run {S} (step : S -> Z -> Z -> S) P u d max sz s : 0 <= u -> 0 < max -> 0 <= sz ->
  fold_left (fun s ic => blk step P (u * fst ic) (u * snd ic) d s) (chunks sz max) s
  = blk step P 0 (u * sz) d s.
Proof.
  intros. unfold chunks. rewrite chunk_run by lia. rewrite Z.mul_0_r, Z.sub_0_r. reflexivity.
Qed.

Lemma chunk_nth max : 0 < max -> forall fuel i sz k, 0 <= i -> sz - i <= Z.of_nat fuel ->
  nth_error (chunk_from fuel i sz max) k =
  if i + Z.of_nat k * max <? sz then Some (i + Z.of_nat k * max, Z.min (sz - (i + Z.of_nat k * max)) max) else None.
Proof.
  intros Hm. induction fuel as [|fuel IH]; intros i sz k Hi Hf.
  - cbn [chunk_from]. assert (0 <= Z.of_nat k * max) by (apply Z.mul_nonneg_nonneg; lia).
    destruct (Z.ltb_spec (i + Z.of_nat k * max) sz); [lia|]. destruct k; reflexivity.
  - cbn [chunk_from]. destruct (Z.ltb_spec i sz) as [L|G].
    + destruct k as [|k].
      * cbn [nth_error]. replace (i + Z.of_nat 0 * max) with i by lia. destruct (Z.ltb_spec i sz); [reflexivity|lia].
      * cbn [nth_error]. rewrite IH by lia.
        replace (i + max + Z.of_nat k * max) with (i + Z.of_nat (S k) * max) by lia. reflexivity.
    + assert (0 <= Z.of_nat k * max) by (apply Z.mul_nonneg_nonneg; lia).
      destruct (Z.ltb_spec (i + Z.of_nat k * max) sz); [lia|]. destruct k; reflexivity.
Qed.
Lemma chunks_in max sz i c : 0 < max -> 0 <= sz -> In (i, c) (chunks sz max) ->
  0 <= i /\ 1 <= c <= max /\ i + c <= sz.
Proof.
  intros Hm Hs Hin. apply In_nth_error in Hin. destruct Hin as (k & Hk).
  unfold chunks in Hk. rewrite chunk_nth in Hk by lia.
  assert (0 <= Z.of_nat k * max) by (apply Z.mul_nonneg_nonneg; lia).
  destruct (Z.ltb_spec (0 + Z.of_nat k * max) sz); [|discriminate]. injection Hk as <- <-. lia.
Qed.

Lemma ceil_calls_spec sz max : 0 <= sz -> 0 < max ->
  0 <= ceil_calls sz max /\ (forall k, 0 <= k -> (k < ceil_calls sz max <-> k * max < sz)).
Proof.
  intros Hs Hm. unfold ceil_calls.
  pose proof (Z.div_mod sz max ltac:(lia)) as E. pose proof (Z.mod_pos_bound sz max Hm) as B.
  assert (Q : 0 <= sz / max) by (apply Z.div_pos; lia).
  set (q := sz / max) in *. set (r := sz mod max) in *. clearbody q r.
  split; [destruct (Z.ltb_spec 0 r); lia|]. intros k Hk.
  destruct (Z.ltb_spec 0 r) as [L|G]; split; intros H.
  - assert (k * max <= q * max) by (apply Z.mul_le_mono_nonneg_r; lia). lia.
  - destruct (Z_lt_ge_dec k (q + 1)); [assumption|].
    assert ((q+1) * max <= k * max) by (apply Z.mul_le_mono_nonneg_r; lia). lia.
  - assert ((k+1) * max <= q * max) by (apply Z.mul_le_mono_nonneg_r; lia). lia.
  - destruct (Z_lt_ge_dec k (q + 0)); [assumption|].
    assert (q * max <= k * max) by (apply Z.mul_le_mono_nonneg_r; lia). lia.
Qed.
Lemma chunks_length sz max : 0 <= sz -> 0 < max -> Z.of_nat (length (chunks sz max)) = ceil_calls sz max.
Proof.
  intros Hs Hm. destruct (ceil_calls_spec sz max Hs Hm) as (C0 & C).
  assert (N : forall k, (k < length (chunks sz max))%nat <-> Z.of_nat k < ceil_calls sz max).
  { intros k. rewrite <- nth_error_Some. unfold chunks. rewrite chunk_nth by lia. rewrite C by lia.
    destruct (Z.ltb_spec (0 + Z.of_nat k * max) sz); split; intros; try lia; try congruence. }
  destruct (Z.lt_trichotomy (Z.of_nat (length (chunks sz max))) (ceil_calls sz max)) as [L|[E|G]]; [|exact E|].
  - apply N in L. lia.
  - assert (Hk : (Z.to_nat (ceil_calls sz max) < length (chunks sz max))%nat) by lia.
    apply N in Hk. lia.
Qed.
Lemma ceil_calls_mono a b max : 0 < max -> 0 <= a <= b -> ceil_calls a max <= ceil_calls b max.
Proof.
  intros Hm Hab. destruct (ceil_calls_spec a max ltac:(lia) Hm) as (A0 & A).
  destruct (ceil_calls_spec b max ltac:(lia) Hm) as (B0 & B).
  destruct (Z_le_gt_dec (ceil_calls a max) (ceil_calls b max)); [assumption|].
  assert (X : ceil_calls b max * max < a) by (apply A; lia).
  assert (Y : ~ (ceil_calls b max < ceil_calls b max)) by lia. rewrite B in Y by lia. lia.
Qed.
Lemma zmax_in l x : In x l -> x <= zmax l.
Proof. induction l as [|y l IH]; [contradiction|]. cbn [zmax fold_right In]. fold (zmax l). intros [->|H]; [lia|apply IH in H; lia]. Qed.
Lemma zmax_nonneg l : 0 <= zmax l.
Proof. induction l as [|y l IH]; [reflexivity|]. cbn [zmax fold_right]. fold (zmax l). lia. Qed.
Lemma zmax_witness l : zmax l = 0 \/ In (zmax l) l.
Proof.
  induction l as [|y l IH]; [left; reflexivity|]. cbn [zmax fold_right]. fold (zmax l).
  destruct (Z.max_spec y (zmax l)) as [(? & ->)|(? & ->)]; [|right; left; reflexivity].
  destruct IH as [E|E]; [left; exact E|right; right; exact E].
Qed.

(** ---- calls ---- *)
Lemma io_loop_total {S} (fn : nat -> call -> S -> option S) (g : call -> S -> S) : forall cs k s,
  (forall k c s, In c cs -> fn k c s = Some (g c s)) ->
  io_loop fn k cs s = Some (fold_left (fun s c => g c s) cs s).
Proof.
  induction cs as [|c cs IH]; intros k s H; [reflexivity|]. cbn [io_loop fold_left].
  rewrite H by (left; reflexivity). apply IH. intros; apply H; right; assumption.
Qed.
Lemma fold_repeat_id {A S} (g : S -> A -> S) x n s : (forall s, g s x = s) -> fold_left g (repeat x n) s = s.
Proof. intros H. induction n; [reflexivity|]. cbn. rewrite H. exact IHn. Qed.

Lemma contig_view_one {S} (step : S -> Z -> Z -> S) view maxSize sizes offset sz d s :
  0 < maxSize -> 0 <= sz ->
  contig_view step view maxSize sizes offset sz d s = Some (mpi_call step (fun j => view (offset + j)) sz d s).
Proof.
  intros Hm Hs. unfold contig_view, contigIO_calls. rewrite Z.div_1_r.
  replace ((1 =? 0) || (maxSize =? 0)) with false by lia.
  rewrite (io_loop_total _ (fun c s => mpi_call step (fun j => view (c_off c + j)) (c_count c) (c_mem c) s)) by reflexivity.
  f_equal. rewrite fold_left_app, fold_repeat_id by reflexivity. rewrite fold_left_map'.
  rewrite (fold_left_ext_in _ (fun s ic => blk step (fun j => view (offset + j)) (1 * fst ic) (1 * snd ic) d s)).
  - rewrite chunks_run by lia. rewrite call_blk. f_equal. lia.
  - intros a (i, c) _. cbn [c_off c_mem c_count fst snd]. rewrite !Z.mul_1_l.
    apply call_shift; [|lia]. intros j _. f_equal. lia.
Qed.
Lemma contig_one {S} (step : S -> Z -> Z -> S) maxSize sizes offset sz d s :
  0 < maxSize -> 0 <= sz ->
  contig step maxSize sizes offset sz d s = Some (mpi_call step (fun j => offset + j) sz d s).
Proof. intros. unfold contig. rewrite contig_view_one by assumption. reflexivity. Qed.

Lemma viewpos_shift offset bsz osz i j : 0 < bsz ->
  viewpos (offset + osz * i) bsz osz j = viewpos offset bsz osz (bsz * i + j).
Proof.
  intros H. unfold viewpos. rewrite (Z.mul_comm bsz i), Z.add_comm with (n := i * bsz), Z.div_add, Z.mod_add by lia. lia.
Qed.
Lemma max_pos maxSize osz : 0 < osz <= maxSize -> 0 < maxSize / osz.
Proof. intros. apply Z.div_str_pos. lia. Qed.

Lemma strided_one {S} (step : S -> Z -> Z -> S) maxSize sizes offset bsz osz nb d s :
  0 < osz <= maxSize -> 0 <= bsz -> 0 <= nb ->
  strided step maxSize sizes offset bsz osz nb d s = Some (mpi_call step (viewpos offset bsz osz) (bsz * nb) d s).
Proof.
  intros Ho Hb Hn. pose proof (max_pos maxSize osz Ho) as Hm. unfold strided, contigIO_calls.
  replace ((osz =? 0) || (maxSize / osz =? 0)) with false by lia.
  rewrite (io_loop_total _ (fun c s => mpi_call step (viewpos (c_off c) bsz osz) (c_count c * bsz) (c_mem c) s)).
  - f_equal. rewrite fold_left_app, fold_repeat_id by reflexivity. rewrite fold_left_map'.
    rewrite (fold_left_ext_in _ (fun s ic => blk step (viewpos offset bsz osz) (bsz * fst ic) (bsz * snd ic) d s)).
    + rewrite chunks_run by lia. rewrite call_blk. reflexivity.
    + intros a (i, c) Hin. apply chunks_in in Hin; [|lia|lia]. cbn [c_off c_mem c_count fst snd].
      rewrite (Z.mul_comm c bsz). apply call_shift; [|lia]. intros j Hj.
      destruct (Z.eq_dec bsz 0); [subst; lia|]. apply viewpos_shift. lia.
  - intros k c s' Hin. unfold iov. rewrite contig_view_one.
    + f_equal.
    + lia.
    + apply in_app_or in Hin. destruct Hin as [Hin|Hin].
      * apply in_map_iff in Hin. destruct Hin as ((i, n) & <- & Hin). apply chunks_in in Hin; [|lia|lia].
        cbn [c_count snd]. apply Z.mul_nonneg_nonneg; lia.
      * apply repeat_spec in Hin. subst c. cbn. lia.
Qed.

Lemma skipn_nth {A} (l : list A) n k d : nth k (skipn n l) d = nth (n + k) l d.
Proof.
  revert l. induction n as [|n IH]; intros l; [reflexivity|]. destruct l as [|x l]; [destruct k; reflexivity|].
  cbn [skipn Nat.add nth]. apply IH.
Qed.
Lemma listpos_shift offs bsz i j : 0 < bsz -> 0 <= i -> 0 <= j ->
  listpos (skipn (Z.to_nat i) offs) bsz j = listpos offs bsz (bsz * i + j).
Proof.
  intros Hb Hi Hj. unfold listpos. rewrite skipn_nth.
  replace (bsz * i + j) with (j + i * bsz) by lia. rewrite Z.div_add, Z.mod_add by lia.
  f_equal. f_equal. assert (0 <= j / bsz) by (apply Z.div_pos; lia). lia.
Qed.
Lemma listio_one {S} (step : S -> Z -> Z -> S) maxSize sizes bsz offs d s :
  0 <= bsz -> 0 < maxSize -> 2 * bsz <= maxSize ->
  listio step maxSize sizes bsz offs d s
  = Some (mpi_call step (listpos offs bsz) (bsz * Z.of_nat (length offs)) d s).
Proof.
  intros Hb Hm Hb2. unfold listio, listIO_calls, listIO_max.
  assert (HM : 0 < maxSize / (if bsz =? 0 then 1 else bsz * 2)).
  { apply Z.div_str_pos. destruct (Z.eqb_spec bsz 0); lia. }
  destruct (Z.eqb_spec (maxSize / (if bsz =? 0 then 1 else bsz * 2)) 0); [lia|]. f_equal.
  rewrite fold_left_app, fold_repeat_id.
  - rewrite (fold_left_ext_in _ (fun s ic => blk step (listpos offs bsz) (bsz * fst ic) (bsz * snd ic) d s)).
    + rewrite chunks_run by lia. rewrite call_blk. reflexivity.
    + intros a (i, c) Hin. apply chunks_in in Hin; [|lia|lia]. cbn [fst snd].
      rewrite (Z.mul_comm c bsz). apply call_shift; [|lia]. intros j Hj.
      destruct (Z.eq_dec bsz 0); [subst; lia|]. apply listpos_shift; lia.
  - intros s'. cbn [fst snd]. unfold mpi_call. rewrite zr_neg by lia. reflexivity.
Qed.

(** ---- what a transfer does: reading ---- *)
Lemma read_call_spec f pos n d m a :
  mpi_call (read_step f) pos n d m a =
  if (d <=? a) && (a <? d + n) && (pos (a - d) <? fsize f) then fbyte f (pos (a - d)) else m a.
Proof.
  destruct (Z_lt_ge_dec n 0) as [Hn|Hn].
  { unfold mpi_call. rewrite zr_neg by lia. cbn [fold_left]. replace ((d <=? a) && (a <? d + n)) with false by lia. reflexivity. }
  replace n with (Z.of_nat (Z.to_nat n)) by lia. generalize (Z.to_nat n) as k. clear. intros k. revert m a.
  induction k as [|k IH]; intros m a.
  - cbn. replace ((d <=? a) && (a <? d + 0)) with false by lia. reflexivity.
  - rewrite call_blk. rewrite Nat2Z.inj_succ. unfold Z.succ. rewrite blk_app by lia. rewrite <- call_blk.
    rewrite blk_1, !Z.add_0_l. set (k' := Z.of_nat k) in *.
    unfold read_step at 1. destruct (Z.ltb_spec (pos k') (fsize f)) as [L|G].
    + destruct (Z.eqb_spec a (d + k')) as [E|E].
      * subst a. replace (d + k' - d) with k' by lia.
        replace ((d <=? d + k') && (d + k' <? d + (k' + 1))) with true by lia.
        replace (pos k' <? fsize f) with true by lia. reflexivity.
      * rewrite IH. replace (a <? d + (k' + 1)) with (a <? d + k') by lia. reflexivity.
    + rewrite IH. destruct (Z.eqb_spec a (d + k')) as [E|E].
      * subst a. replace (d + k' - d) with k' by lia.
        replace (pos k' <? fsize f) with false by lia. rewrite !andb_false_r. reflexivity.
      * replace (a <? d + (k' + 1)) with (a <? d + k') by lia. reflexivity.
Qed.

(** ---- writing ---- *)
Lemma write_call_outside m pos n d f q :
  (forall j, 0 <= j < n -> pos j <> q) -> fbyte (mpi_call (write_step m) pos n d f) q = fbyte f q.
Proof.
  intros H. unfold mpi_call. assert (G : forall l f, (forall j, In j l -> pos j <> q) ->
    fbyte (fold_left (fun s j => write_step m s (pos j) (d + j)) l f) q = fbyte f q).
  { induction l as [|j l IH]; intros f' Hl; [reflexivity|]. cbn [fold_left]. rewrite IH by (intros; apply Hl; right; assumption).
    cbn [write_step fbyte]. assert (pos j <> q) by (apply Hl; left; reflexivity).
    destruct (Z.eqb_spec q (pos j)); [congruence|reflexivity]. }
  apply G. intros j Hj. apply H. apply in_zr in Hj. exact Hj.
Qed.
Lemma write_call_inside m pos n d f j :
  0 <= j < n -> (forall i, j < i < n -> pos i <> pos j) ->
  fbyte (mpi_call (write_step m) pos n d f) (pos j) = m (d + j).
Proof.
  intros Hj H. rewrite call_blk. replace n with ((j + 1) + (n - (j + 1))) by lia.
  rewrite blk_app by lia.
  rewrite <- (call_shift (write_step m) (fun i => pos (0 + (j + 1) + i)) pos (0 + (j+1)) (n - (j+1)) d (d + (0 + (j+1)))) by (intros; reflexivity || lia).
  rewrite write_call_outside by (intros i Hi; apply H; lia).
  rewrite blk_app, blk_1 by lia. cbn [write_step fbyte].
  replace (0 + j) with j by lia. rewrite Z.eqb_refl. reflexivity.
Qed.
Lemma write_call_size m pos n d f :
  fsize f <= fsize (mpi_call (write_step m) pos n d f) /\
  (forall j, 0 <= j < n -> pos j < fsize (mpi_call (write_step m) pos n d f)) /\
  (forall b, fsize f <= b -> (forall j, 0 <= j < n -> pos j < b) -> fsize (mpi_call (write_step m) pos n d f) <= b).
Proof.
  unfold mpi_call.
  assert (G : forall l f, let F := fold_left (fun s j => write_step m s (pos j) (d + j)) l f in
     fsize f <= fsize F /\ (forall j, In j l -> pos j < fsize F) /\
     (forall b, fsize f <= b -> (forall j, In j l -> pos j < b) -> fsize F <= b)).
  { induction l as [|j l IH]; intros f'; cbn [fold_left].
    - cbn. repeat split; try lia; intros; contradiction || lia.
    - destruct (IH (write_step m f' (pos j) (d + j))) as (A & B & C). cbn [write_step fsize] in A, C.
      cbn zeta. split; [lia|]. split.
      + intros i [<-|Hi]; [lia|apply B; exact Hi].
      + intros b Hb Hl. apply C; [|intros; apply Hl; right; assumption].
        assert (pos j < b) by (apply Hl; left; reflexivity). lia. }
  destruct (G (zr n) f) as (A & B & C). split; [exact A|]. split.
  - intros j Hj. apply B. apply in_zr. exact Hj.
  - intros b Hb H. apply C; [exact Hb|]. intros j Hj. apply H. apply in_zr in Hj. exact Hj.
Qed.

(** positions of a strided transfer *)
Lemma viewpos_block offset bsz osz k j : 0 <= j < bsz -> viewpos offset bsz osz (bsz * k + j) = offset + osz * k + j.
Proof.
  intros. unfold viewpos. replace (bsz * k + j) with (j + k * bsz) by lia.
  rewrite Z.div_add, Z.mod_add, Z.div_small, Z.mod_small by lia. lia.
Qed.
Lemma listpos_block offs bsz k j : 0 <= k -> 0 <= j < bsz -> listpos offs bsz (bsz * k + j) = nth (Z.to_nat k) offs 0 + j.
Proof.
  intros. unfold listpos. replace (bsz * k + j) with (j + k * bsz) by lia.
  rewrite Z.div_add, Z.mod_add, Z.div_small, Z.mod_small by lia. reflexivity.
Qed.
Lemma split_index n bsz j : 0 <= n -> 0 <= bsz -> 0 <= j < bsz * n ->
  0 < bsz /\ exists k i, 0 <= k < n /\ 0 <= i < bsz /\ j = bsz * k + i.
Proof.
  intros Hn Hb0 H. assert (Hb : 0 < bsz). { destruct (Z.eq_dec bsz 0); [subst; lia|lia]. }
  split; [exact Hb|]. exists (j / bsz), (j mod bsz).
  pose proof (Z.div_mod j bsz ltac:(lia)). pose proof (Z.mod_pos_bound j bsz Hb).
  assert (0 <= j / bsz) by (apply Z.div_pos; lia).
  assert (j / bsz < n) by (apply Z.div_lt_upper_bound; lia). lia.
Qed.
(** a strided or list transfer is the sequence of its blocks *)
Lemma blocks_seq {S} (step : S -> Z -> Z -> S) P bsz d : 0 <= bsz -> forall n s,
  blk step P 0 (bsz * Z.of_nat n) d s =
  fold_left (fun s k => mpi_call step (fun j => P (bsz * k + j)) bsz (d + bsz * k) s) (zrange n) s.
Proof.
  intros Hb. induction n as [|n IH]; intros s.
  - rewrite blk_0 by lia. reflexivity.
  - unfold zrange. rewrite seq_S, map_app, fold_left_app. fold (zrange n). rewrite <- IH. cbn [map fold_left].
    rewrite Nat2Z.inj_succ. unfold Z.succ. rewrite Z.mul_add_distr_l, Z.mul_1_r.
    rewrite blk_app by (try apply Z.mul_nonneg_nonneg; lia). symmetry. apply call_shift; [|lia].
    intros j _. f_equal; lia.
Qed.

(** ---- what the three kinds of access do, in the caller's terms ---- *)
Lemma contig_read_exact f maxSize sizes offset sz d m : 0 < maxSize -> 0 <= sz ->
  exists m', contig (read_step f) maxSize sizes offset sz d m = Some m' /\
  forall a, m' a = if (d <=? a) && (a <? d + sz) && (offset + (a - d) <? fsize f) then fbyte f (offset + (a - d)) else m a.
Proof.
  intros. eexists. split; [apply contig_one; assumption|]. intros a. apply read_call_spec.
Qed.
Lemma contig_write_exact f maxSize sizes offset sz d m : 0 < maxSize -> 0 <= sz ->
  exists f', contig (write_step m) maxSize sizes offset sz d f = Some f' /\
  (forall j, 0 <= j < sz -> fbyte f' (offset + j) = m (d + j)) /\
  (forall q, q < offset \/ offset + sz <= q -> fbyte f' q = fbyte f q) /\
  fsize f' = (if 0 <? sz then Z.max (fsize f) (offset + sz) else fsize f).
Proof.
  intros Hm Hs. eexists. split; [apply contig_one; assumption|]. split; [|split].
  - intros j Hj. apply (write_call_inside m (fun j => offset + j)); [exact Hj|]. intros; lia.
  - intros q Hq. apply write_call_outside. intros; lia.
  - destruct (write_call_size m (fun j => offset + j) sz d f) as (A & B & C).
    destruct (Z.ltb_spec 0 sz).
    + assert (X := B (sz - 1) ltac:(lia)). cbv beta in X.
      assert (Y : fsize (mpi_call (write_step m) (fun j => offset + j) sz d f) <= Z.max (fsize f) (offset + sz)).
      { apply C; intros; lia. }
      lia.
    + assert (fsize (mpi_call (write_step m) (fun j => offset + j) sz d f) <= fsize f) by (apply C; intros; lia). lia.
Qed.

Lemma strided_read_exact f maxSize sizes offset bsz osz nb d m :
  0 < osz <= maxSize -> 0 <= bsz -> 0 <= nb ->
  exists m', strided (read_step f) maxSize sizes offset bsz osz nb d m = Some m' /\
  (forall k j, 0 <= k < nb -> 0 <= j < bsz ->
     m' (d + bsz * k + j) = if offset + osz * k + j <? fsize f then fbyte f (offset + osz * k + j) else m (d + bsz * k + j)) /\
  (forall a, a < d \/ d + bsz * nb <= a -> m' a = m a).
Proof.
  intros Ho Hb Hn. eexists. split; [apply strided_one; assumption|]. split.
  - intros k j Hk Hj. rewrite read_call_spec. replace (d + bsz * k + j - d) with (bsz * k + j) by lia.
    rewrite viewpos_block by exact Hj.
    assert (bsz * k + bsz <= bsz * nb). { replace (bsz * k + bsz) with (bsz * (k+1)) by lia. apply Z.mul_le_mono_nonneg_l; lia. }
    assert (0 <= bsz * k) by (apply Z.mul_nonneg_nonneg; lia).
    replace ((d <=? d + bsz * k + j) && (d + bsz * k + j <? d + bsz * nb)) with true by lia. reflexivity.
  - intros a Ha. rewrite read_call_spec. replace ((d <=? a) && (a <? d + bsz * nb)) with false by lia. reflexivity.
Qed.
Lemma strided_write_exact f maxSize sizes offset bsz osz nb d m :
  0 < osz <= maxSize -> 0 <= bsz <= osz -> 0 <= nb ->
  exists f', strided (write_step m) maxSize sizes offset bsz osz nb d f = Some f' /\
  (forall k j, 0 <= k < nb -> 0 <= j < bsz -> fbyte f' (offset + osz * k + j) = m (d + bsz * k + j)) /\
  (forall q, (forall k j, 0 <= k < nb -> 0 <= j < bsz -> q <> offset + osz * k + j) -> fbyte f' q = fbyte f q) /\
  fsize f' = (if (0 <? nb) && (0 <? bsz) then Z.max (fsize f) (offset + osz * (nb - 1) + bsz) else fsize f).
Proof.
  intros Ho Hb Hn. eexists. split; [apply strided_one; lia|].
  assert (BN : forall k j, 0 <= k < nb -> 0 <= j < bsz -> 0 <= bsz * k + j < bsz * nb).
  { intros k j Hk Hj. assert (0 <= bsz * k) by (apply Z.mul_nonneg_nonneg; lia).
    assert (bsz * (k+1) <= bsz * nb) by (apply Z.mul_le_mono_nonneg_l; lia). lia. }
  split; [|split].
  - intros k j Hk Hj. rewrite <- (viewpos_block offset bsz osz k j Hj).
    rewrite write_call_inside; [f_equal; lia|apply BN; assumption|].
    intros i Hi. assert (Hi2 : 0 <= i < bsz * nb) by (pose proof (BN k j Hk Hj); lia).
    destruct (split_index nb bsz i Hn ltac:(lia) Hi2) as (Hb0 & k' & j' & Hk' & Hj' & ->).
    rewrite !viewpos_block by assumption. intros E.
    destruct (Z.eq_dec k k') as [->|Nk]; [lia|].
    destruct (Z_lt_ge_dec k k') as [L|G].
    + assert (osz * (k+1) <= osz * k') by (apply Z.mul_le_mono_nonneg_l; lia). lia.
    + assert (osz * (k'+1) <= osz * k) by (apply Z.mul_le_mono_nonneg_l; lia). lia.
  - intros q Hq. apply write_call_outside. intros i Hi.
    destruct (split_index nb bsz i Hn ltac:(lia) Hi) as (Hb0 & k & j & Hk & Hj & ->).
    rewrite viewpos_block by assumption. intros E. apply (Hq k j Hk Hj). lia.
  - destruct (write_call_size m (viewpos offset bsz osz) (bsz * nb) d f) as (A & B & C).
    set (F := fsize (mpi_call (write_step m) (viewpos offset bsz osz) (bsz * nb) d f)) in *.
    assert (U : forall i, 0 <= i < bsz * nb -> viewpos offset bsz osz i < offset + osz * (nb - 1) + bsz).
    { intros i Hi. destruct (split_index nb bsz i Hn ltac:(lia) Hi) as (Hb0 & k & j & Hk & Hj & ->).
      rewrite viewpos_block by assumption.
      assert (osz * k <= osz * (nb - 1)) by (apply Z.mul_le_mono_nonneg_l; lia). lia. }
    destruct (Z.ltb_spec 0 nb) as [Ln|Gn]; cbn [andb].
    + destruct (Z.ltb_spec 0 bsz) as [Lb|Gb].
      * assert (X := B (bsz * (nb - 1) + (bsz - 1)) ltac:(apply BN; lia)).
        rewrite viewpos_block in X by lia.
        assert (Y : F <= Z.max (fsize f) (offset + osz * (nb - 1) + bsz)) by (apply C; [lia|intros j Hj; specialize (U j Hj); lia]). lia.
      * assert (F <= fsize f); [|lia]. apply C; [lia|]. intros j Hj. replace bsz with 0 in Hj by lia. lia.
    + assert (F <= fsize f); [|lia]. apply C; [lia|]. intros j Hj. replace nb with 0 in Hj by lia. lia.
Qed.

Lemma list_read_exact f maxSize sizes bsz offs d m :
  0 <= bsz -> 0 < maxSize -> 2 * bsz <= maxSize ->
  exists m', listio (read_step f) maxSize sizes bsz offs d m = Some m' /\
  (forall k j, (k < length offs)%nat -> 0 <= j < bsz ->
     m' (d + bsz * Z.of_nat k + j) = if nth k offs 0 + j <? fsize f then fbyte f (nth k offs 0 + j) else m (d + bsz * Z.of_nat k + j)) /\
  (forall a, a < d \/ d + bsz * Z.of_nat (length offs) <= a -> m' a = m a).
Proof.
  intros Hb Hm Hb2. eexists. split; [apply listio_one; assumption|]. split.
  - intros k j Hk Hj. rewrite read_call_spec. replace (d + bsz * Z.of_nat k + j - d) with (bsz * Z.of_nat k + j) by lia.
    rewrite listpos_block by lia. rewrite Nat2Z.id.
    assert (bsz * (Z.of_nat k + 1) <= bsz * Z.of_nat (length offs)) by (apply Z.mul_le_mono_nonneg_l; lia).
    assert (0 <= bsz * Z.of_nat k) by (apply Z.mul_nonneg_nonneg; lia).
    replace ((d <=? d + bsz * Z.of_nat k + j) && (d + bsz * Z.of_nat k + j <? d + bsz * Z.of_nat (length offs))) with true by lia. reflexivity.
  - intros a Ha. rewrite read_call_spec.
    replace ((d <=? a) && (a <? d + bsz * Z.of_nat (length offs))) with false by lia. reflexivity.
Qed.
(** list writes: in general the last block written to a position wins; here for
    lists whose blocks do not overlap *)
Definition blocks_disjoint (bsz : Z) (offs : list Z) : Prop :=
  forall i k, (i < length offs)%nat -> (k < length offs)%nat -> i <> k ->
  nth i offs 0 + bsz <= nth k offs 0 \/ nth k offs 0 + bsz <= nth i offs 0.
Lemma list_write_exact f maxSize sizes bsz offs d m :
  0 <= bsz -> 0 < maxSize -> 2 * bsz <= maxSize -> blocks_disjoint bsz offs ->
  exists f', listio (write_step m) maxSize sizes bsz offs d f = Some f' /\
  (forall k j, (k < length offs)%nat -> 0 <= j < bsz -> fbyte f' (nth k offs 0 + j) = m (d + bsz * Z.of_nat k + j)) /\
  (forall q, (forall k j, (k < length offs)%nat -> 0 <= j < bsz -> q <> nth k offs 0 + j) -> fbyte f' q = fbyte f q) /\
  fsize f <= fsize f' /\
  (forall k, (k < length offs)%nat -> 0 < bsz -> nth k offs 0 + bsz <= fsize f') /\
  (forall b, fsize f <= b -> (forall k, (k < length offs)%nat -> nth k offs 0 + bsz <= b) -> fsize f' <= b).
Proof.
  intros Hb Hm Hb2 HD. eexists. split; [apply listio_one; assumption|].
  set (n := Z.of_nat (length offs)).
  assert (BN : forall k j, 0 <= k < n -> 0 <= j < bsz -> 0 <= bsz * k + j < bsz * n).
  { intros k j Hk Hj. assert (0 <= bsz * k) by (apply Z.mul_nonneg_nonneg; lia).
    assert (bsz * (k+1) <= bsz * n) by (apply Z.mul_le_mono_nonneg_l; lia). lia. }
  destruct (write_call_size m (listpos offs bsz) (bsz * n) d f) as (SA & SB & SC).
  split; [|split; [|split; [|split]]].
  - intros k j Hk Hj. pose proof (listpos_block offs bsz (Z.of_nat k) j ltac:(lia) Hj) as E. rewrite Nat2Z.id in E.
    rewrite <- E. rewrite write_call_inside; [f_equal; lia|apply BN; unfold n; lia|].
    intros i Hi. assert (Hi2 : 0 <= i < bsz * n) by (pose proof (BN (Z.of_nat k) j ltac:(unfold n; lia) Hj); lia).
    destruct (split_index n bsz i ltac:(unfold n; lia) ltac:(lia) Hi2) as (Hb0 & k' & j' & Hk' & Hj' & ->).
    rewrite E, listpos_block by lia. intros EE.
    destruct (Nat.eq_dec k (Z.to_nat k')) as [Ek|Nk].
    + rewrite <- Ek in EE. assert (k' = Z.of_nat k) by lia. subst k'. lia.
    + destruct (HD k (Z.to_nat k')) as [X|X]; unfold n in *; lia.
  - intros q Hq. apply write_call_outside. intros i Hi.
    destruct (split_index n bsz i ltac:(unfold n; lia) ltac:(lia) Hi) as (Hb0 & k & j & Hk & Hj & ->).
    rewrite listpos_block by lia. intros E. apply (Hq (Z.to_nat k) j); unfold n in *; lia.
  - exact SA.
  - intros k Hk Hbp. assert (X := SB (bsz * Z.of_nat k + (bsz - 1)) ltac:(apply BN; unfold n; lia)).
    rewrite listpos_block, Nat2Z.id in X by lia. fold n. lia.
  - intros b Hfb Hk. apply SC; [exact Hfb|]. intros i Hi.
    destruct (split_index n bsz i ltac:(unfold n; lia) ltac:(lia) Hi) as (Hb0 & k & j & Hk' & Hj & ->).
    rewrite listpos_block by lia. specialize (Hk (Z.to_nat k) ltac:(unfold n in *; lia)). lia.
Qed.

(** ---- collective calls ---- *)
Lemma calls_length maxSize sizes offset sz d bsz osz cs :
  0 < osz <= maxSize -> (forall x, In x sizes -> 0 <= x) -> In sz sizes ->
  contigIO_calls maxSize sizes offset sz d bsz osz = Some cs ->
  Z.of_nat (length cs) = ceil_calls (zmax sizes) (maxSize / osz).
Proof.
  intros Ho Hs Hin H. pose proof (max_pos maxSize osz Ho) as Hm. unfold contigIO_calls in H.
  replace ((osz =? 0) || (maxSize / osz =? 0)) with false in H by lia. injection H as <-.
  rewrite app_length, map_length, repeat_length.
  pose proof (chunks_length sz (maxSize/osz) (Hs _ Hin) Hm).
  pose proof (ceil_calls_mono sz (zmax sizes) (maxSize/osz) Hm (conj (Hs _ Hin) (zmax_in _ _ Hin))).
  lia.
Qed.
Lemma contig_events_same maxSize sizes s1 s2 :
  (forall x, In x sizes -> 0 <= x) -> In s1 sizes -> In s2 sizes -> 0 < maxSize ->
  exists e, contig_events maxSize sizes s1 = Some e /\ contig_events maxSize sizes s2 = Some e.
Proof.
  intros Hs H1 H2 Hm. unfold contig_events.
  assert (D : forall s, exists cs, contigIO_calls maxSize sizes 0 s 0 1 1 = Some cs).
  { intros s. unfold contigIO_calls. rewrite Z.div_1_r. replace ((1 =? 0) || (maxSize =? 0)) with false by lia. eexists; reflexivity. }
  destruct (D s1) as (c1 & E1), (D s2) as (c2 & E2). rewrite E1, E2. eexists. split; [reflexivity|].
  do 3 f_equal.
  pose proof (calls_length maxSize sizes 0 s1 0 1 1 c1 ltac:(lia) Hs H1 E1).
  pose proof (calls_length maxSize sizes 0 s2 0 1 1 c2 ltac:(lia) Hs H2 E2). lia.
Qed.
Lemma strided_calls_nth maxSize sizes offset nb d bsz osz cs k c :
  0 < osz <= maxSize -> 0 <= nb ->
  contigIO_calls maxSize sizes offset nb d bsz osz = Some cs -> nth_error cs k = Some c ->
  c_count c = kth_count nb (maxSize / osz) k.
Proof.
  intros Ho Hn H Hk. pose proof (max_pos maxSize osz Ho) as Hm. unfold contigIO_calls in H.
  replace ((osz =? 0) || (maxSize / osz =? 0)) with false in H by lia. injection H as <-.
  set (max := maxSize / osz) in *. unfold kth_count.
  destruct (Nat.lt_ge_cases k (length (chunks nb max))) as [L|G].
  - rewrite nth_error_app1 in Hk by (rewrite map_length; exact L).
    rewrite nth_error_map in Hk. unfold chunks in Hk. rewrite chunk_nth in Hk by lia.
    destruct (Z.ltb_spec (0 + Z.of_nat k * max) nb); [|discriminate].
    injection Hk as <-. cbn [c_count snd]. lia.
  - rewrite nth_error_app2 in Hk by (rewrite map_length; exact G).
    apply nth_error_In in Hk. apply repeat_spec in Hk. subst c. cbn [c_count].
    assert (NN : nth_error (chunks nb max) k = None) by (apply nth_error_None; exact G).
    unfold chunks in NN. rewrite chunk_nth in NN by lia.
    destruct (Z.ltb_spec (0 + Z.of_nat k * max) nb); [discriminate|]. lia.
Qed.
Lemma strided_events_same maxSize sizes bsz osz n1 n2 :
  (forall x, In x sizes -> 0 <= x) -> In n1 sizes -> In n2 sizes -> 0 < osz <= maxSize -> 0 <= bsz ->
  exists e, strided_events maxSize sizes bsz osz n1 = Some e /\ strided_events maxSize sizes bsz osz n2 = Some e.
Proof.
  intros Hs H1 H2 Ho Hb. unfold strided_events. pose proof (max_pos maxSize osz Ho) as Hm.
  assert (D : forall s, exists cs, contigIO_calls maxSize sizes 0 s 0 bsz osz = Some cs).
  { intros s. unfold contigIO_calls. replace ((osz =? 0) || (maxSize / osz =? 0)) with false by lia. eexists; reflexivity. }
  destruct (D n1) as (c1 & E1), (D n2) as (c2 & E2). rewrite E1, E2.
  assert (L : length c1 = length c2).
  { pose proof (calls_length _ _ _ _ _ _ _ _ Ho Hs H1 E1). pose proof (calls_length _ _ _ _ _ _ _ _ Ho Hs H2 E2). lia. }
  assert (K1 : forall k c, nth_error c1 k = Some c -> c_count c = kth_count n1 (maxSize / osz) k)
    by (intros; eapply strided_calls_nth; try eassumption; apply Hs; assumption).
  assert (K2 : forall k c, nth_error c2 k = Some c -> c_count c = kth_count n2 (maxSize / osz) k)
    by (intros; eapply strided_calls_nth; try eassumption; apply Hs; assumption).
  clear E1 E2.
  assert (G : forall c1 c2 k0, length c1 = length c2 ->
     (forall k c, nth_error c1 k = Some c -> c_count c = kth_count n1 (maxSize / osz) (k0 + k)) ->
     (forall k c, nth_error c2 k = Some c -> c_count c = kth_count n2 (maxSize / osz) (k0 + k)) ->
     exists e, strided_steps maxSize sizes bsz osz k0 c1 = Some e /\ strided_steps maxSize sizes bsz osz k0 c2 = Some e).
  { clear - Hs H1 H2 Hb Ho Hm. induction c1 as [|a c1 IH]; intros [|b c2] k0 L K1 K2; try discriminate.
    - exists []. split; reflexivity.
    - injection L as L. cbn [strided_steps].
      assert (A : c_count a = kth_count n1 (maxSize / osz) k0) by (rewrite (K1 0%nat a eq_refl); f_equal; lia).
      assert (B : c_count b = kth_count n2 (maxSize / osz) k0) by (rewrite (K2 0%nat b eq_refl); f_equal; lia).
      destruct (IH c2 (k0 + 1)%nat L) as (er & R1 & R2).
      { intros k c Hc. rewrite (K1 (S k) c Hc). f_equal. lia. }
      { intros k c Hc. rewrite (K2 (S k) c Hc). f_equal. lia. }
      rewrite R1, R2.
      destruct (contig_events_same maxSize (map (fun n => bsz * kth_count n (maxSize / osz) k0) sizes) (c_count a * bsz) (c_count b * bsz)) as (e & X1 & X2).
      + intros x Hx. apply in_map_iff in Hx. destruct Hx as (n & <- & _). apply Z.mul_nonneg_nonneg; [lia|unfold kth_count; lia].
      + apply in_map_iff. exists n1. split; [lia|assumption].
      + apply in_map_iff. exists n2. split; [lia|assumption].
      + lia.
      + rewrite X1, X2. eexists. split; reflexivity. }
  destruct (G c1 c2 0%nat L K1 K2) as (e & R1 & R2). rewrite R1, R2. eexists. split; reflexivity.
Qed.
Lemma list_events_same maxSize sizes bsz s1 s2 :
  (forall x, In x sizes -> 0 <= x) -> In s1 sizes -> In s2 sizes -> 0 < maxSize -> 0 <= bsz -> 2 * bsz <= maxSize ->
  exists e, list_events maxSize sizes bsz s1 = Some e /\ list_events maxSize sizes bsz s2 = Some e.
Proof.
  intros Hs H1 H2 Hm Hb Hb2. unfold list_events, listIO_calls, listIO_max.
  assert (HM : 0 < maxSize / (if bsz =? 0 then 1 else bsz * 2)).
  { apply Z.div_str_pos. destruct (Z.eqb_spec bsz 0); lia. }
  set (max := maxSize / (if bsz =? 0 then 1 else bsz * 2)) in *.
  destruct (Z.eqb_spec max 0); [lia|]. eexists. split; [reflexivity|]. do 2 f_equal.
  assert (G : forall l1 l2 : list (Z * Z), length l1 = length l2 ->
     flat_map (fun _ => [SetView; IOAll; SetView]) l1 = flat_map (fun _ => [SetView; IOAll; SetView]) l2).
  { induction l1 as [|a l1 IH]; intros [|b l2] L; try discriminate; [reflexivity|]. cbn. do 3 f_equal. apply IH. cbn [length] in L. lia. }
  apply G. rewrite !app_length, !repeat_length.
  pose proof (chunks_length s1 max (Hs _ H1) HM). pose proof (chunks_length s2 max (Hs _ H2) HM).
  pose proof (ceil_calls_mono s1 (zmax sizes) max HM (conj (Hs _ H1) (zmax_in _ _ H1))).
  pose proof (ceil_calls_mono s2 (zmax sizes) max HM (conj (Hs _ H2) (zmax_in _ _ H2))). lia.
Qed.

(** ---- sizes of the calls ---- *)
Lemma contig_call_bounds maxSize sizes offset sz d bsz osz cs c :
  0 < osz <= maxSize -> 0 <= sz -> contigIO_calls maxSize sizes offset sz d bsz osz = Some cs -> In c cs ->
  0 <= c_count c /\ osz * c_count c <= maxSize.
Proof.
  intros Ho Hs H Hin. pose proof (max_pos maxSize osz Ho) as Hm. unfold contigIO_calls in H.
  replace ((osz =? 0) || (maxSize / osz =? 0)) with false in H by lia. injection H as <-.
  apply in_app_or in Hin. destruct Hin as [Hin|Hin].
  - apply in_map_iff in Hin. destruct Hin as ((i, n) & <- & Hin). apply chunks_in in Hin; [|lia|lia]. cbn [c_count snd].
    split; [lia|]. pose proof (Z.mul_div_le maxSize osz ltac:(lia)).
    assert (osz * n <= osz * (maxSize / osz)) by (apply Z.mul_le_mono_nonneg_l; lia). lia.
  - apply repeat_spec in Hin. subst c. cbn [c_count]. lia.
Qed.
Lemma list_call_bounds maxSize sizes bsz sz cs i c :
  0 <= bsz -> 0 < maxSize -> 2 * bsz <= maxSize -> 0 <= sz -> listIO_calls maxSize sizes bsz sz = Some cs -> In (i, c) cs ->
  0 <= c /\ 2 * bsz * c <= maxSize.
Proof.
  intros Hb Hm Hb2 Hs H Hin. unfold listIO_calls, listIO_max in H.
  destruct (Z.eqb_spec bsz 0) as [E|E].
  - rewrite Z.div_1_r in H. destruct (Z.eqb_spec maxSize 0); [lia|]. injection H as <-. subst bsz.
    apply in_app_or in Hin. destruct Hin as [Hin|Hin].
    + apply chunks_in in Hin; [|lia|lia]. lia.
    + apply repeat_spec in Hin. injection Hin as -> ->. lia.
  - assert (HM : 0 < maxSize / (bsz * 2)) by (apply Z.div_str_pos; lia).
    destruct (Z.eqb_spec (maxSize / (bsz * 2)) 0); [lia|]. injection H as <-.
    apply in_app_or in Hin. destruct Hin as [Hin|Hin].
    + apply chunks_in in Hin; [|lia|lia]. split; [lia|].
      pose proof (Z.mul_div_le maxSize (bsz * 2) ltac:(lia)).
      assert (bsz * 2 * c <= bsz * 2 * (maxSize / (bsz * 2))) by (apply Z.mul_le_mono_nonneg_l; lia). lia.
    + apply repeat_spec in Hin. injection Hin as -> ->. lia.
Qed.

(** ---- traces ---- *)
Lemma DO_single {S} (step : S -> Z -> Z -> S) maxSize sizes offset ns nt sz d s :
  0 < maxSize -> fits nt ns -> 0 <= offset -> 0 <= sz -> offset + sz <= nt ->
  objDO step maxSize sizes offset ns sz d s =
  Some (mpi_call step (fun j => 3600 + offset * (240 + 4 * ns) + j) (sz * (240 + 4 * ns)) d s).
Proof.
  intros Hm Hf Ho Hs Hle. unfold objDO. rewrite (getDOLoc_exact offset nt) by (assumption || lia).
  pose proof Hf as (? & ? & ? & ?). rewrite getDOSz_exact by assumption.
  apply contig_one; [assumption|]. apply Z.mul_nonneg_nonneg; lia.
Qed.
Lemma DOMD_single {S} (step : S -> Z -> Z -> S) maxSize sizes offset ns nt sz d s :
  240 + 4 * ns <= maxSize -> fits nt ns -> 0 <= offset -> 0 <= sz -> offset + sz <= nt ->
  objDOMD step maxSize sizes offset ns sz d s =
  Some (mpi_call step (viewpos (3600 + offset * (240 + 4 * ns)) 240 (240 + 4 * ns)) (240 * sz) d s).
Proof.
  intros Hm Hf Ho Hs Hle. unfold objDOMD. rewrite (getDOLoc_exact offset nt) by (assumption || lia).
  pose proof Hf as (? & ? & ? & ?). rewrite getDOSz_exact by assumption. unfold getMDSz.
  apply strided_one; lia.
Qed.
Lemma DODF_single {S} (step : S -> Z -> Z -> S) maxSize sizes offset ns nt sz d s :
  240 + 4 * ns <= maxSize -> fits nt ns -> 0 <= offset < nt -> 0 <= sz -> offset + sz <= nt ->
  objDODF step maxSize sizes offset ns sz d s =
  Some (mpi_call step (viewpos (3600 + offset * (240 + 4 * ns) + 240) (4 * ns) (240 + 4 * ns)) (4 * ns * sz) d s).
Proof.
  intros Hm Hf Ho Hs Hle. unfold objDODF. rewrite (getDODFLoc_exact offset nt) by (assumption || lia).
  pose proof Hf as (? & ? & ? & ?). rewrite getDOSz_exact, getDFSz_exact by assumption.
  apply strided_one; lia.
Qed.
(** offset, offset+1, ..., offset+sz-1 *)
Definition consecutive (offset sz : Z) : list Z := map (Z.add offset) (zr sz).
Lemma consecutive_length offset sz : 0 <= sz -> Z.of_nat (length (consecutive offset sz)) = sz.
Proof. intros. unfold consecutive, zr, zrange. rewrite !map_length, seq_length. lia. Qed.
Lemma consecutive_nth offset sz k (g : Z -> Z) dflt : 0 <= k < sz ->
  nth (Z.to_nat k) (map g (consecutive offset sz)) dflt = g (offset + k).
Proof.
  intros H. unfold consecutive, zr, zrange. rewrite !map_map.
  rewrite nth_indep with (d' := (fun x => g (offset + Z.of_nat x)) O) by (rewrite map_length, seq_length; lia).
  rewrite (map_nth (fun x => g (offset + Z.of_nat x))), seq_nth by lia. f_equal. lia.
Qed.
Lemma listpos_consecutive g offset sz bsz j : 0 < bsz -> 0 <= sz -> 0 <= j < bsz * sz ->
  listpos (map g (consecutive offset sz)) bsz j = g (offset + j / bsz) + j mod bsz.
Proof.
  intros Hb Hs Hj. unfold listpos. rewrite consecutive_nth; [reflexivity|].
  split; [apply Z.div_pos; lia|apply Z.div_lt_upper_bound; lia].
Qed.
Lemma range_is_list_DO {S} (step : S -> Z -> Z -> S) maxSize sizes sizes' offset ns nt sz d s :
  2 * (240 + 4 * ns) <= maxSize -> fits nt ns -> 0 <= offset -> 0 <= sz -> offset + sz <= nt ->
  objDO step maxSize sizes offset ns sz d s = objDO_list step maxSize sizes' (consecutive offset sz) ns d s.
Proof.
  intros Hm Hf Ho Hs Hle. pose proof Hf as (? & ? & ? & ?).
  rewrite (DO_single step maxSize sizes offset ns nt) by (assumption || lia).
  unfold objDO_list. rewrite getDOSz_exact by assumption. rewrite listio_one by lia.
  f_equal. rewrite map_length, consecutive_length by assumption. rewrite (Z.mul_comm sz (240 + 4 * ns)).
  apply call_ext. intros j Hj. rewrite listpos_consecutive by lia.
  assert (0 <= j / (240 + 4 * ns) < sz) by (split; [apply Z.div_pos; lia|apply Z.div_lt_upper_bound; lia]).
  rewrite (getDOLoc_exact _ nt) by (assumption || lia).
  pose proof (Z.div_mod j (240 + 4 * ns) ltac:(lia)). lia.
Qed.
Lemma range_is_list_DOMD {S} (step : S -> Z -> Z -> S) maxSize sizes sizes' offset ns nt sz d s :
  2 * (240 + 4 * ns) <= maxSize -> fits nt ns -> 0 <= offset -> 0 <= sz -> offset + sz <= nt ->
  objDOMD step maxSize sizes offset ns sz d s = objDOMD_list step maxSize sizes' (consecutive offset sz) ns d s.
Proof.
  intros Hm Hf Ho Hs Hle. pose proof Hf as (? & ? & ? & ?).
  rewrite (DOMD_single step maxSize sizes offset ns nt) by (assumption || lia).
  unfold objDOMD_list, getMDSz. rewrite listio_one by lia.
  f_equal. rewrite map_length, consecutive_length by assumption.
  apply call_ext. intros j Hj. rewrite listpos_consecutive by lia.
  assert (0 <= j / 240 < sz) by (split; [apply Z.div_pos; lia|apply Z.div_lt_upper_bound; lia]).
  rewrite (getDOLoc_exact _ nt) by (assumption || lia). unfold viewpos. lia.
Qed.
Lemma range_is_list_DODF {S} (step : S -> Z -> Z -> S) maxSize sizes sizes' offset ns nt sz d s :
  2 * (240 + 4 * ns) <= maxSize -> fits nt ns -> 0 <= offset < nt -> 0 <= sz -> offset + sz <= nt ->
  objDODF step maxSize sizes offset ns sz d s = objDODF_list step maxSize sizes' (consecutive offset sz) ns d s.
Proof.
  intros Hm Hf Ho Hs Hle. pose proof Hf as (? & ? & ? & ?).
  rewrite (DODF_single step maxSize sizes offset ns nt) by (assumption || lia).
  unfold objDODF_list. destruct (Z.eqb_spec ns 0) as [E|E].
  - subst ns. reflexivity.
  - rewrite getDFSz_exact by assumption. rewrite listio_one by lia.
    f_equal. rewrite map_length, consecutive_length by assumption.
    apply call_ext. intros j Hj. rewrite listpos_consecutive by lia.
    assert (0 <= j / (4 * ns) < sz) by (split; [apply Z.div_pos; lia|apply Z.div_lt_upper_bound; lia]).
    rewrite (getDODFLoc_exact _ nt) by (assumption || lia). unfold viewpos. lia.
Qed.

Lemma full_read_is_parts f maxSize sizes offset ns nt sz (m mmd mdf : mem) :
  240 + 4 * ns <= maxSize -> fits nt ns -> getFileSz nt ns <= fsize f -> 0 <= offset < nt -> 0 <= sz -> offset + sz <= nt ->
  exists mf mh ms,
    objDO (read_step f) maxSize sizes offset ns sz 0 m = Some mf /\
    objDOMD (read_step f) maxSize sizes offset ns sz 0 mmd = Some mh /\
    objDODF (read_step f) maxSize sizes offset ns sz 0 mdf = Some ms /\
    (forall i j, 0 <= i < sz -> 0 <= j < 240 -> mf (i * (240 + 4 * ns) + j) = mh (i * 240 + j)) /\
    (forall i j, 0 <= i < sz -> 0 <= j < 4 * ns -> mf (i * (240 + 4 * ns) + 240 + j) = ms (i * (4 * ns) + j)).
Proof.
  intros Hm Hf Hfs Ho Hs Hle. pose proof Hf as (? & ? & ? & ?). rewrite getFileSz_exact in Hfs by assumption.
  do 3 eexists. split; [apply (DO_single _ _ _ _ _ nt); assumption || lia|].
  split; [apply (DOMD_single _ _ _ _ _ nt); assumption || lia|].
  split; [apply (DODF_single _ _ _ _ _ nt); assumption || lia|].
  set (D := 240 + 4 * ns) in *.
  assert (FS : forall i, 0 <= i < sz -> 3600 + offset * D + i * D + D <= fsize f).
  { intros i Hi. assert ((offset + i + 1) * D <= nt * D) by (apply Z.mul_le_mono_nonneg_r; lia). lia. }
  assert (SZ : forall i, 0 <= i < sz -> 0 <= i * D /\ i * D + D <= sz * D).
  { intros i Hi. assert ((i + 1) * D <= sz * D) by (apply Z.mul_le_mono_nonneg_r; lia).
    assert (0 <= i * D) by (apply Z.mul_nonneg_nonneg; lia). lia. }
  split; intros i j Hi Hj; rewrite !read_call_spec; rewrite !Z.sub_0_r; specialize (FS i Hi); specialize (SZ i Hi).
  - rewrite (Z.mul_comm i 240). rewrite viewpos_block by lia.
    replace ((0 <=? i * D + j) && (i * D + j <? 0 + sz * D) && (3600 + offset * D + (i * D + j) <? fsize f)) with true by lia.
    replace ((0 <=? 240 * i + j) && (240 * i + j <? 0 + 240 * sz) && (3600 + offset * D + D * i + j <? fsize f)) with true by lia.
    f_equal. lia.
  - rewrite (Z.mul_comm i (4 * ns)). rewrite viewpos_block by lia.
    assert (4 * ns * (i + 1) <= 4 * ns * sz) by (apply Z.mul_le_mono_nonneg_l; lia).
    assert (0 <= 4 * ns * i) by (apply Z.mul_nonneg_nonneg; lia).
    replace ((0 <=? i * D + 240 + j) && (i * D + 240 + j <? 0 + sz * D) && (3600 + offset * D + (i * D + 240 + j) <? fsize f)) with true by (unfold D in *; lia).
    replace ((0 <=? 4 * ns * i + j) && (4 * ns * i + j <? 0 + 4 * ns * sz) && (3600 + offset * D + 240 + D * i + j <? fsize f)) with true by (unfold D in *; lia).
    f_equal. lia.
Qed.

(** header-only writes leave all samples alone, sample-only writes all headers *)
Lemma md_write_keeps_samples f maxSize sizes offset ns nt sz m d i x :
  240 + 4 * ns <= maxSize -> fits nt ns -> 0 <= offset -> 0 <= sz -> offset + sz <= nt -> 0 <= i < nt ->
  in_region ns (Samples i) x \/ x < 3600 ->
  exists f', objDOMD (write_step m) maxSize sizes offset ns sz d f = Some f' /\ fbyte f' x = fbyte f x.
Proof.
  intros Hm Hf Ho Hs Hle Hi Hx. pose proof Hf as (? & ? & ? & ?).
  eexists. split; [apply (DOMD_single _ _ _ _ _ nt); assumption || lia|]. apply write_call_outside.
  intros j Hj E. set (D := 240 + 4 * ns) in *.
  destruct (split_index sz 240 j Hs ltac:(lia) Hj) as (_ & k & b & Hk & Hb & ->).
  rewrite viewpos_block in E by exact Hb.
  assert (0 <= offset * D) by (apply Z.mul_nonneg_nonneg; lia). assert (0 <= D * k) by (apply Z.mul_nonneg_nonneg; lia).
  destruct Hx as [Hx|Hx]; [|lia].
  unfold in_region in Hx. cbn [region_range fst snd] in Hx. rewrite (getDODFLoc_exact i nt), getDFSz_exact in Hx by (assumption || lia).
  fold D in Hx. destruct (Z.lt_trichotomy (offset + k) i) as [L|[L|L]].
  - assert ((offset + k + 1) * D <= i * D) by (apply Z.mul_le_mono_nonneg_r; lia). lia.
  - subst i. lia.
  - assert ((i + 1) * D <= (offset + k) * D) by (apply Z.mul_le_mono_nonneg_r; lia). unfold D in *. lia.
Qed.
Lemma df_write_keeps_headers f maxSize sizes offset ns nt sz m d i x :
  240 + 4 * ns <= maxSize -> fits nt ns -> 0 <= offset < nt -> 0 <= sz -> offset + sz <= nt -> 0 <= i < nt ->
  in_region ns (Metadata i) x \/ x < 3600 ->
  exists f', objDODF (write_step m) maxSize sizes offset ns sz d f = Some f' /\ fbyte f' x = fbyte f x.
Proof.
  intros Hm Hf Ho Hs Hle Hi Hx. pose proof Hf as (? & ? & ? & ?).
  eexists. split; [apply (DODF_single _ _ _ _ _ nt); assumption || lia|]. apply write_call_outside.
  intros j Hj E. set (D := 240 + 4 * ns) in *.
  destruct (split_index sz (4 * ns) j Hs ltac:(lia) Hj) as (_ & k & b & Hk & Hb & ->).
  rewrite viewpos_block in E by exact Hb.
  assert (0 <= offset * D) by (apply Z.mul_nonneg_nonneg; lia). assert (0 <= D * k) by (apply Z.mul_nonneg_nonneg; lia).
  destruct Hx as [Hx|Hx]; [|lia].
  unfold in_region in Hx. cbn [region_range fst snd] in Hx. rewrite (getDOLoc_exact i nt) in Hx by (assumption || lia).
  unfold getMDSz in Hx. fold D in Hx. destruct (Z.lt_trichotomy (offset + k) i) as [L|[L|L]].
  - assert ((offset + k + 1) * D <= i * D) by (apply Z.mul_le_mono_nonneg_r; lia). unfold D in *. lia.
  - subst i. lia.
  - assert ((i + 1) * D <= (offset + k) * D) by (apply Z.mul_le_mono_nonneg_r; lia). unfold D in *. lia.
Qed.

(** a full write is a header write plus a sample write *)
Lemma full_write_is_parts f maxSize sizes offset ns nt sz (m mh ms : mem) :
  240 + 4 * ns <= maxSize -> fits nt ns -> 0 <= offset < nt -> 0 <= sz -> offset + sz <= nt ->
  (forall i j, 0 <= i < sz -> 0 <= j < 240 -> m (i * (240 + 4 * ns) + j) = mh (i * 240 + j)) ->
  (forall i j, 0 <= i < sz -> 0 <= j < 4 * ns -> m (i * (240 + 4 * ns) + 240 + j) = ms (i * (4 * ns) + j)) ->
  exists ff fh fd,
    objDO (write_step m) maxSize sizes offset ns sz 0 f = Some ff /\
    objDOMD (write_step mh) maxSize sizes offset ns sz 0 f = Some fh /\
    objDODF (write_step ms) maxSize sizes offset ns sz 0 fh = Some fd /\
    forall x, fbyte fd x = fbyte ff x.
Proof.
  intros Hm Hf Ho Hs Hle Ah As. pose proof Hf as (? & ? & ? & ?).
  do 3 eexists. split; [apply (DO_single _ _ _ _ _ nt); assumption || lia|].
  split; [apply (DOMD_single _ _ _ _ _ nt); assumption || lia|].
  split; [apply (DODF_single _ _ _ _ _ nt); assumption || lia|].
  set (D := 240 + 4 * ns) in *. set (B := 3600 + offset * D). intros x.
  assert (SZ : forall i, 0 <= i < sz -> 0 <= i * D /\ i * D + D <= sz * D).
  { intros i Hi. assert ((i + 1) * D <= sz * D) by (apply Z.mul_le_mono_nonneg_r; lia).
    assert (0 <= i * D) by (apply Z.mul_nonneg_nonneg; lia). lia. }
  assert (UN : forall i k a b, 0 <= a < D -> 0 <= b < D -> D * i + a = D * k + b -> i = k /\ a = b).
  { intros i k a b Ha Hb E. destruct (Z.lt_trichotomy i k) as [L|[L|L]].
    - assert (D * (i+1) <= D * k) by (apply Z.mul_le_mono_nonneg_l; lia). lia.
    - subst. lia.
    - assert (D * (k+1) <= D * i) by (apply Z.mul_le_mono_nonneg_l; lia). lia. }
  destruct (Z_lt_ge_dec x B) as [L|G].
  { rewrite !write_call_outside; [reflexivity|..].
    - intros j Hj. unfold B in *. lia.
    - intros j Hj. destruct (split_index sz 240 j Hs ltac:(lia) Hj) as (_ & k & b & Hk & Hb & ->).
      rewrite viewpos_block by exact Hb. assert (0 <= D * k) by (apply Z.mul_nonneg_nonneg; lia). fold B. lia.
    - intros j Hj. destruct (split_index sz (4 * ns) j Hs ltac:(lia) Hj) as (_ & k & b & Hk & Hb & ->).
      rewrite viewpos_block by exact Hb. assert (0 <= D * k) by (apply Z.mul_nonneg_nonneg; lia). fold B. lia. }
  destruct (Z_lt_ge_dec (x - B) (sz * D)) as [L2|G2].
  2: { rewrite !write_call_outside; [reflexivity|..].
    - intros j Hj. fold B. lia.
    - intros j Hj. destruct (split_index sz 240 j Hs ltac:(lia) Hj) as (_ & k & b & Hk & Hb & ->).
      rewrite viewpos_block by exact Hb. specialize (SZ k Hk). fold B. unfold D in *. lia.
    - intros j Hj. destruct (split_index sz (4 * ns) j Hs ltac:(lia) Hj) as (_ & k & b & Hk & Hb & ->).
      rewrite viewpos_block by exact Hb. specialize (SZ k Hk). fold B. unfold D in *. lia. }
  destruct (split_index sz D (x - B) Hs ltac:(lia) ltac:(lia)) as (_ & k & b & Hk & Hb & E).
  assert (Ex : x = B + (D * k + b)) by lia.
  assert (FW : fbyte (mpi_call (write_step m) (fun j => B + j) (sz * D) 0 f) x = m (0 + (D * k + b))).
  { rewrite Ex. apply (write_call_inside m (fun j => B + j) (sz * D) 0 f (D * k + b)); intros; lia. }
  fold B. rewrite FW. destruct (Z_lt_ge_dec b 240) as [Lb|Gb].
  - rewrite write_call_outside.
    2: { intros j Hj. destruct (split_index sz (4 * ns) j Hs ltac:(lia) Hj) as (_ & k' & b' & Hk' & Hb' & ->).
      rewrite viewpos_block by exact Hb'. intros EE. destruct (UN k' k (240 + b') b); unfold D in *; lia. }
    replace x with (viewpos B 240 D (240 * k + b)) by (rewrite viewpos_block by lia; lia).
    rewrite write_call_inside.
    + rewrite !Z.add_0_l. replace (D * k + b) with (k * D + b) by lia. rewrite Ah by lia. f_equal; lia.
    + lia.
    + intros i Hi. assert (Hi2 : 0 <= i < 240 * sz) by lia.
      destruct (split_index sz 240 i Hs ltac:(lia) Hi2) as (_ & k' & b' & Hk' & Hb' & ->).
      rewrite !viewpos_block by lia. intros EE. destruct (UN k' k b' b); unfold D in *; lia.
  - assert (4 * ns * (k + 1) <= 4 * ns * sz) by (apply Z.mul_le_mono_nonneg_l; lia).
    assert (0 <= 4 * ns * k) by (apply Z.mul_nonneg_nonneg; lia).
    replace x with (viewpos (B + 240) (4 * ns) D (4 * ns * k + (b - 240))) by (rewrite viewpos_block by (unfold D in *; lia); lia).
    rewrite write_call_inside.
    + rewrite !Z.add_0_l. replace (D * k + b) with (k * D + 240 + (b - 240)) by lia. rewrite As by (unfold D in *; lia). f_equal; lia.
    + unfold D in *; lia.
    + intros i Hi. assert (Hi2 : 0 <= i < 4 * ns * sz) by (unfold D in *; lia).
      destruct (split_index sz (4 * ns) i Hs ltac:(lia) Hi2) as (_ & k' & b' & Hk' & Hb' & ->).
      rewrite !viewpos_block by (unfold D in *; lia). intros EE. destruct (UN k' k (240 + b') b); unfold D in *; lia.
Qed.
