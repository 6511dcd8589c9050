(** C102, C108, C109: programs that change a file while they copy it. *)
From Coq Require Import Reals Lra.
From Flocq Require Import Core IEEE754.BinarySingleNaN.
From Verif Require Import Base DecompModel DecompSpec DecompProofs NumEncModel NumEncSpec NumEncProofs CharEncModel CharEncProofs LayoutModel LayoutProofs DataIOModel DataIOProofs
  RuleModel RuleProofs DoubleModel ParamModel ParamProofs HeaderProofs ScalarProofs CompProofs FileSpec FileModel FileProofs WriteSpec WriteProofs ParamProperties ReadProofs OpenProofs FileProperties TraceProperties.
From Verif Require Import FloatModel FloatProofs SetOpsModel SetOpsProofs CopySpec CopyProofs ExampleModel ExampleProofs CopyProperties PieceProofs CreateSpec CreateProofs ModModel ModSpec ModProofs ModOptProofs.
Import ListNotations.
Open Scope Z_scope.

Lemma copyable_readable maxSize memmax sizes0 f rd : copyable maxSize memmax sizes0 f rd -> readable maxSize sizes0 f rd.
Proof. intros [CO CB CS CM CN CT CF CI CMM]. constructor; assumption. Qed.
Lemma header_bytes f ns i : file_bytes f -> mem_bytes (disk_header f ns i).
Proof. intros H x. apply H. Qed.
Lemma mod_memory_fits rd : 0 <= r_ns rd <= 32767 -> Z.max 240 (4 * r_ns rd) <= mod_memory < two64.
Proof. intros. unfold mod_memory, two64. lia. Qed.

(** ---- modprm ---- *)
Lemma mod_block_ok maxSize sizes0 f rd sizes d b memmax : readable maxSize sizes0 f rd -> Z.max 240 (4 * r_ns rd) <= memmax < two64 ->
  0 <= global_offset d -> 0 <= local_size d -> global_offset d + local_size d <= r_nt rd -> aligned (global_offset d) (local_size d) (rw_tcnt memmax (r_ns rd)) b ->
  block_ok rd (fun _ => mod_block maxSize sizes rd f) (fun _ _ => 0) (fun i => swap_header (disk_header f (r_ns rd) i)) false O b.
Proof.
  intros [CO CB CS (CM & CM2) CN CT CI] MM D0 D1 D2 A. destruct (open_fits _ _ _ _ CM CB CS CO CN) as (F & HT). clear CO. pose proof F as (N0 & _).
  assert (T0 : 0 < rw_tcnt memmax (r_ns rd)).
  { unfold rw_tcnt. rewrite getDFSz_exact by (unfold two64; lia). change getMDSz with 240. destruct (Z.ltb_spec 240 (4 * r_ns rd)); apply Z.div_str_pos; lia. }
  destruct (aligned_range _ _ _ _ D1 T0 A) as (B1 & B2 & B3). clear A MM. destruct b as [off n]. cbn [fst snd] in *.
  destruct (read_block maxSize (sizes off n) rd f off n None CM2 F HT CB) as (trc & prm & E & W & R & S & H & TN & _); try lia; try discriminate; [congruence|].
  destruct (swap_rows n prm W R ltac:(lia)) as (prm' & E2 & W' & R' & S' & G & OT).
  { intros i I. apply (coordinates_held prm i _ R (H i I)). }
  exists (sizes off n), None, prm'. split.
  - unfold mod_block. rewrite E. cbn [obind]. rewrite E2. reflexivity.
  - split; [discriminate|]. split; [reflexivity|]. split; [discriminate|]. split; [exact W'|]. split; [exact R'|]. split; [cbn [snd]; lia|].
    intros j J. cbn [fst snd] in *. destruct (G j J) as (GX & GY). apply (swap_holds prm prm' j _ R R' (H j J) GX GY). intros m M1 M2. apply OT; assumption.
Qed.
(** C108: the program makes the same number of calls in every process and never leaves
    defined behaviour; samples of the input are not read, so their format does not matter. *)
Theorem C108_modprm_runs :
  forall maxSize sizes0 f rd, readable maxSize sizes0 f rd ->
  forall p, (0 < p)%nat -> forall sizes : nat -> Z -> Z -> list Z,
  exists n, forall r, (r < p)%nat -> exists ops, modprm maxSize (sizes r) rd f (Z.of_nat p) (Z.of_nat r) = Some ops /\ length ops = n.
Proof.
  intros maxSize sizes0 f rd RD p P sizes. pose proof RD as [CO CB CS (CM & CM2) CN CT CI]. destruct (open_fits _ _ _ _ CM CB CS CO CN) as (F & HT). clear CO. pose proof F as (N0 & _).
  apply (blocks_run maxSize sizes0 f rd mod_memory p (fun r => mod_block maxSize (sizes r) rd f) (fun _ _ => 0) (fun i => swap_header (disk_header f (r_ns rd) i)) false RD (mod_memory_fits rd ltac:(lia)) P).
  intros r d b R E D0 D1 D2 A. exact (mod_block_ok maxSize sizes0 f rd (sizes r) d b mod_memory RD (mod_memory_fits rd ltac:(lia)) D0 D1 D2 A).
Qed.
Print Assumptions C108_modprm_runs.
(** C108: the output has the layout and the traces of the input with the source coordinates
    exchanged; the samples the output already had stay. *)
Theorem C108_modprm_swaps :
  forall maxSize sizes0 f rd, readable maxSize sizes0 f rd ->
  forall p h f0 maxSize' sizes', (0 < p)%nat -> file_bytes f0 -> 3600 <= maxSize' ->
  forall sizes : nat -> Z -> Z -> list Z, (forall x, In x h -> (fst x < p)%nat) ->
  (forall r, (r < p)%nat -> modprm maxSize (sizes r) rd f (Z.of_nat p) (Z.of_nat r) = Some (rank_ops h r)) ->
  exists f' rd', write_file maxSize p h f0 = Some f' /\ fsize f' = 3600 + r_nt rd * (240 + 4 * r_ns rd) /\
  open_file maxSize' sizes' f' = Some rd' /\ r_ns rd' = r_ns rd /\ r_nt rd' = r_nt rd /\ r_inc rd' = r_inc rd /\
  (plain_text (r_text rd) -> r_text rd' = r_text rd) /\
  (forall i, 0 <= i < r_nt rd -> source_swapped f f' (r_ns rd) i) /\
  (forall i, 0 <= i < r_nt rd -> 3600 + (i + 1) * (240 + 4 * r_ns rd) <= fsize f0 ->
     forall k, 0 <= k < r_ns rd -> disk_sample f' (r_ns rd) i k = disk_sample f0 (r_ns rd) i k).
Proof.
  intros maxSize sizes0 f rd RD p h f0 maxSize' sizes' P FB0 M' sizes RK RUN. pose proof RD as [CO CB CS (CM & CM2) CN CT CI]. destruct (open_fits _ _ _ _ CM CB CS CO CN) as (F & HT). clear CO. pose proof F as (N0 & _).
  destruct (blocks_written maxSize sizes0 f rd mod_memory p h f0 maxSize' sizes' (fun r => mod_block maxSize (sizes r) rd f) (fun _ _ => 0) (fun i => swap_header (disk_header f (r_ns rd) i)) false RD (mod_memory_fits rd ltac:(lia)) P)
    as (f' & rd' & W & AN & SZ & O & Q1 & Q2 & Q3 & Q4 & Q5 & Q6); try assumption.
  { intros r d b R E D0 D1 D2 A. exact (mod_block_ok maxSize sizes0 f rd (sizes r) d b mod_memory RD (mod_memory_fits rd ltac:(lia)) D0 D1 D2 A). }
  { intros i x. unfold swap_header. destruct (_ && _); [apply CB|]. destruct (_ && _); apply CB. }
  exists f', rd'. split; [apply W|]. split; [exact SZ|]. split; [exact O|]. clear O. split; [exact Q1|]. split; [exact Q2|]. split; [exact Q3|]. split; [exact Q4|]. split.
  - intros i I. destruct (Q5 i I) as (_ & HI & HC & _). clear Q5 Q6. set (ns := r_ns rd) in *. set (hd := disk_header f ns i) in *.
    assert (P71 : int16_at (swap_header hd) 71 = int16_at hd 71) by reflexivity. rewrite P71 in HC.
    assert (OTH : forall l, In l [81; 85; 181; 185] -> coordinate (swap_header hd) l 71 = coordinate hd l 71) by (intros l [<-|[<-|[<-|[<-|[]]]]]; reflexivity).
    constructor; fold hd.
    + intros l L. rewrite (HI l L). destruct L as [<-|[<-|[<-|[<-|[]]]]]; reflexivity.
    + intros PL. rewrite (HC PL 73 ltac:(cbn; tauto)). reflexivity.
    + intros PL. rewrite (HC PL 77 ltac:(cbn; tauto)). reflexivity.
    + intros PL l L. rewrite (HC PL l ltac:(cbn in *; tauto)). apply OTH. exact L.
  - intros i I TS k K. apply Q6; try assumption; [reflexivity|]. unfold trace_at. lia.
Qed.
Print Assumptions C108_modprm_swaps.
Example C108_nonvacuous : exists rd, readable 4000 [] (source_file 250) rd /\ r_nt rd = 3 /\ r_ns rd = 2 /\ plain_scale (int16_at (disk_header (source_file 250) 2 1) 71) /\
  int32_at (disk_header (source_file 250) 2 1) 73 <> int32_at (disk_header (source_file 250) 2 1) 77.
Proof.
  destruct C101_nonvacuous as (rd & C & T & N & _ & PL & _). exists rd. split; [apply (copyable_readable _ _ _ _ _ C)|]. split; [exact T|]. split; [exact N|]. split; [exact PL|]. vm_compute. discriminate.
Qed.

(** ---- creadwrite with options ---- *)
Definition option_prm (pf : bool) : option (Z -> Z -> param -> option param) := if pf then Some source_1600_2400 else None.
Lemma opt_tcnt maxSize memmax sizes0 f rd : copyable maxSize memmax sizes0 f rd -> 0 < rw_tcnt memmax (r_ns rd).
Proof.
  intros C. destruct C as [CO CB CS (CM & CM2) CN CT CF CI CMM]. destruct (open_fits _ _ _ _ CM CB CS CO CN) as (F & HT). clear CO. pose proof F as (N0 & _).
  unfold rw_tcnt. rewrite getDFSz_exact by (unfold two64; lia). change getMDSz with 240. destruct (Z.ltb_spec 240 (4 * r_ns rd)); apply Z.div_str_pos; lia.
Qed.
Section Options.
Context (maxSize memmax : Z) (sizes0 : list Z) (f : file) (rd : reader) (C : copyable maxSize memmax sizes0 f rd).
Context (p : nat) (P : (0 < p)%nat) (sizes : nat -> Z -> Z -> list Z) (m0 : nat -> Z -> Z -> mem) (MB : forall r x y, mem_bytes (m0 r x y)).
Context (pf tf : bool) (PF : pf = true -> r_nt rd <= 2147480000 /\ unscaled f (r_nt rd) (r_ns rd)).
Definition opt_block (r : nat) (b : Z * Z) : option wop :=
  if tf then rw_block_t maxSize (sizes r) (m0 r) rd f (option_prm pf) b else rw_block maxSize (sizes r) (m0 r) rd f (option_prm pf) b.
Definition opt_first (i : Z) : Z := block_first (piece_of (r_nt rd) (Z.of_nat p) i) (rw_tcnt memmax (r_ns rd)) i.
Definition opt_count (i : Z) : Z := block_count (piece_of (r_nt rd) (Z.of_nat p) i) (rw_tcnt memmax (r_ns rd)) i.
Definition opt_hdr (i : Z) : mem := if pf then source_header (opt_first i) (disk_header f (r_ns rd) i) else disk_header f (r_ns rd) i.
Definition opt_smp (i k : Z) : Z :=
  let x := (i - opt_first i) * r_ns rd + k in
  if tf && (x <? opt_count i - 1 + r_ns rd) then enc_f (line_value (opt_first i) (Z.max 0 (x - (opt_count i - 1)))) else disk_sample f (r_ns rd) i k.
Lemma opt_ok r d b : (r < p)%nat -> block_decomposition (r_nt rd) (Z.of_nat p) (Z.of_nat r) = Some d ->
  0 <= global_offset d -> 0 <= local_size d -> global_offset d + local_size d <= r_nt rd -> aligned (global_offset d) (local_size d) (rw_tcnt memmax (r_ns rd)) b ->
  block_ok rd opt_block opt_smp opt_hdr true r b.
Proof.
  intros R ED D0 D1 D2 A. pose proof (opt_tcnt maxSize memmax sizes0 f rd C) as T0. destruct C as [CO CB CS (CM & CM2) CN CT CF CI CMM]. destruct (open_inv _ _ _ _ CM CB CS CO) as (_ & _ & E3 & _). destruct (open_fits _ _ _ _ CM CB CS CO CN) as (F & HT). clear CO. pose proof F as (N0 & NT0 & S64 & _).
  assert (N64 : in_u64 (r_nt rd)). { assert (r_nt rd * 240 <= r_nt rd * (240 + 4 * r_ns rd)) by (apply Z.mul_le_mono_nonneg_l; lia). unfold in_u64; lia. }
  destruct (aligned_range _ _ _ _ D1 T0 A) as (B1 & B2 & B3).
  assert (FC : forall i, fst b <= i < fst b + snd b -> opt_first i = fst b /\ opt_count i = snd b).
  { intros i I. unfold opt_first, opt_count. rewrite (piece_of_eq (r_nt rd) (Z.of_nat p) (Z.of_nat r) d i N64 ltac:(lia) ED D0 D2 ltac:(lia)). apply aligned_first; assumption. }
  clear A. destruct b as [off n]. cbn [fst snd] in *.
  destruct (read_block maxSize (sizes r off n) rd f off n (Some (m0 r off n)) CM2 F HT CB) as (trc & prm & E & W & RL & S & H & _ & SM); try lia.
  { intros m Q. injection Q as Q. rewrite <- Q. apply MB. }
  destruct (SM _ eq_refl) as (m' & -> & MB' & SMP). clear SM.
  assert (X : exists prm', mod_params (option_prm pf) off n prm = Some prm' /\ wf_param prm' /\ p_rule prm' = default_rule /\ p_sz prm' = n /\ forall j, 0 <= j < n -> holds prm' j (opt_hdr (off + j))).
  { unfold option_prm, opt_hdr. destruct pf.
    - destruct (PF eq_refl) as (NT & US). destruct (source_holds off n prm W RL S B2 ltac:(lia)) as (q & EQ & WQ & RQ & SQ & HQ). exists q. repeat (split; [assumption|]).
      intros j J. destruct (FC (off + j) ltac:(lia)) as (-> & _). apply HQ; [exact J| |apply H; exact J]. specialize (US (off + j) ltac:(lia)). rewrite int16_rd in US by apply CB. exact US.
    - exists prm. cbn [mod_params]. repeat (split; [assumption || reflexivity|]). exact H. }
  destruct X as (prm' & EP & W' & RL' & S' & H').
  exists (sizes r off n), (Some (if tf then linear_block off (r_ns rd) n m' else m')), prm'. split.
  - unfold opt_block. destruct tf; [unfold rw_block_t|unfold rw_block]; rewrite E; cbn [obind]; rewrite EP; reflexivity.
  - split; [discriminate|]. split; [discriminate|]. split; [|split; [exact W'|]; split; [exact RL'|]; split; [exact S'|exact H']].
    intros m Q. injection Q as <-. split; [destruct tf; [apply block_bytes|]; exact MB'|]. intros j k J K. cbn [fst snd] in J. cbn [fst].
    unfold opt_smp. destruct (FC (off + j) ltac:(lia)) as (-> & ->). replace (off + j - off) with j by lia.
    assert (JN : 0 <= j * r_ns rd) by (apply Z.mul_nonneg_nonneg; lia).
    destruct tf; cbn [andb].
    + rewrite (block_sample off (r_ns rd) m' (j * r_ns rd + k) ltac:(lia) ltac:(lia) n B2). replace (0 <? n) with true by lia. cbn [andb]. rewrite <- SMP by assumption. reflexivity.
    + rewrite <- SMP by assumption. reflexivity.
Qed.
Lemma opt_program r : (if tf then creadwrite_t maxSize (sizes r) (m0 r) rd f memmax (option_prm pf) else creadwrite maxSize (sizes r) (m0 r) rd f memmax (option_prm pf)) (Z.of_nat p) (Z.of_nat r)
  = block_program (opt_block r) rd memmax (Z.of_nat p) (Z.of_nat r).
Proof. unfold creadwrite_t, creadwrite, opt_block. destruct tf; reflexivity. Qed.
Lemma opt_hdr_bytes i : mem_bytes (opt_hdr i).
Proof. destruct C as [_ CB _ _ _ _ _ _ _]. unfold opt_hdr. destruct pf; [apply source_hd_bytes|]; apply header_bytes; exact CB. Qed.
Lemma options_run : exists n, forall r, (r < p)%nat -> exists ops,
  (if tf then creadwrite_t maxSize (sizes r) (m0 r) rd f memmax (option_prm pf) else creadwrite maxSize (sizes r) (m0 r) rd f memmax (option_prm pf)) (Z.of_nat p) (Z.of_nat r) = Some ops /\ length ops = n.
Proof.
  pose proof C as [CO CB CS (CM & CM2) CN CT CF CI CMM]. clear CO.
  destruct (blocks_run maxSize sizes0 f rd memmax p opt_block opt_smp opt_hdr true (copyable_readable _ _ _ _ _ C) CMM P) as (n & H).
  { intros r d b R E D0 D1 D2 A. exact (opt_ok r d b R E D0 D1 D2 A). }
  exists n. intros r R. rewrite opt_program. apply H. exact R.
Qed.
Context (h : history) (f0 : file) (maxSize' : Z) (sizes' : list Z) (FB0 : file_bytes f0) (M' : 3600 <= maxSize') (RK : forall x, In x h -> (fst x < p)%nat)
  (RUN : forall r, (r < p)%nat -> (if tf then creadwrite_t maxSize (sizes r) (m0 r) rd f memmax (option_prm pf) else creadwrite maxSize (sizes r) (m0 r) rd f memmax (option_prm pf)) (Z.of_nat p) (Z.of_nat r) = Some (rank_ops h r)).
Lemma options_written : exists f' rd', write_file maxSize p h f0 = Some f' /\ fsize f' = 3600 + r_nt rd * (240 + 4 * r_ns rd) /\
  open_file maxSize' sizes' f' = Some rd' /\ r_ns rd' = r_ns rd /\ r_nt rd' = r_nt rd /\ r_inc rd' = r_inc rd /\ (plain_text (r_text rd) -> r_text rd' = r_text rd) /\
  (forall i, 0 <= i < r_nt rd -> process_has (r_nt rd) (Z.of_nat p) (piece_of (r_nt rd) (Z.of_nat p) i) i /\
     (forall l, In l copied_ints -> int32_at (disk_header f' (r_ns rd) i) l = int32_at (opt_hdr i) l) /\
     (plain_scale (int16_at (opt_hdr i) 71) -> forall l, In l copied_coordinates -> coordinate (disk_header f' (r_ns rd) i) l 71 = coordinate (opt_hdr i) l 71) /\
     (forall k, 0 <= k < r_ns rd -> disk_sample f' (r_ns rd) i k = opt_smp i k)).
Proof.
  pose proof C as [CO CB CS (CM & CM2) CN CT CF CI CMM]. clear CO.
  destruct (blocks_written maxSize sizes0 f rd memmax p h f0 maxSize' sizes' opt_block opt_smp opt_hdr true (copyable_readable _ _ _ _ _ C) CMM P)
    as (f' & rd' & W & AN & SZ & O & Q1 & Q2 & Q3 & Q4 & Q5 & _); try assumption.
  { intros r d b R E D0 D1 D2 A. exact (opt_ok r d b R E D0 D1 D2 A). }
  { intros r R. rewrite <- opt_program. exact (RUN r R). }
  { exact opt_hdr_bytes. }
  exists f', rd'. split; [apply W|]. split; [exact SZ|]. split; [exact O|]. clear O. split; [exact Q1|]. split; [exact Q2|]. split; [exact Q3|]. split; [exact Q4|].
  intros i I. destruct (Q5 i I) as (A & B & D & E). split; [exact A|]. split; [exact B|]. split; [exact D|]. exact (E eq_refl).
Qed.
End Options.

(** C102, the part that holds: with -p, when no coordinate of the input is scaled, the
    program runs, and the source of every trace is 1600 and 2400 plus the number of the
    first trace of its block; everything else is as in the input. *)
Theorem C102_source_partial :
  forall maxSize memmax sizes0 f rd, copyable maxSize memmax sizes0 f rd -> r_nt rd <= 2147480000 -> unscaled f (r_nt rd) (r_ns rd) ->
  forall p, (0 < p)%nat ->
  forall (sizes : nat -> Z -> Z -> list Z) (m0 : nat -> Z -> Z -> mem), (forall r x y, mem_bytes (m0 r x y)) ->
  (exists n, forall r, (r < p)%nat -> exists ops, creadwrite maxSize (sizes r) (m0 r) rd f memmax (Some source_1600_2400) (Z.of_nat p) (Z.of_nat r) = Some ops /\ length ops = n) /\
  forall h f0, file_bytes f0 -> (forall x, In x h -> (fst x < p)%nat) ->
  (forall r, (r < p)%nat -> creadwrite maxSize (sizes r) (m0 r) rd f memmax (Some source_1600_2400) (Z.of_nat p) (Z.of_nat r) = Some (rank_ops h r)) ->
  exists f', write_file maxSize p h f0 = Some f' /\ fsize f' = 3600 + r_nt rd * (240 + 4 * r_ns rd) /\
  forall i, 0 <= i < r_nt rd -> exists d, process_has (r_nt rd) (Z.of_nat p) d i /\
    let hd := disk_header f (r_ns rd) i in let hd' := disk_header f' (r_ns rd) i in
    coordinate hd' 73 71 = IZR (1600 + block_first d (rw_tcnt memmax (r_ns rd)) i) /\
    coordinate hd' 77 71 = IZR (2400 + block_first d (rw_tcnt memmax (r_ns rd)) i) /\
    (forall l, In l [81; 85; 181; 185] -> coordinate hd' l 71 = coordinate hd l 71) /\
    (forall l, In l copied_ints -> int32_at hd' l = int32_at hd l) /\
    (forall k, 0 <= k < r_ns rd -> disk_sample f' (r_ns rd) i k = disk_sample f (r_ns rd) i k).
Proof.
  intros maxSize memmax sizes0 f rd C NT US p P sizes m0 MB. split.
  { exact (options_run maxSize memmax sizes0 f rd C p P sizes m0 MB true false (fun _ => conj NT US)). }
  intros h f0 FB0 RK RUN.
  destruct (options_written maxSize memmax sizes0 f rd C p P sizes m0 MB true false (fun _ => conj NT US) h f0 3600 [] FB0 ltac:(lia) RK RUN) as (f' & rd' & W & SZ & _ & _ & _ & _ & _ & Q).
  exists f'. split; [exact W|]. split; [exact SZ|]. intros i I. destruct (Q i I) as (PH & HI & HC & HS). clear Q W SZ. exists (piece_of (r_nt rd) (Z.of_nat p) i). split; [exact PH|]. cbv zeta.
  pose proof (opt_tcnt maxSize memmax sizes0 f rd C) as T0. pose proof C as [_ CB _ _ _ _ _ _ _]. unfold opt_hdr, opt_smp, opt_first in *. cbn [andb] in HS.
  set (v := block_first (piece_of (r_nt rd) (Z.of_nat p) i) (rw_tcnt memmax (r_ns rd)) i) in *. set (hd := disk_header f (r_ns rd) i) in *.
  assert (V : 0 <= v <= i).
  { destruct PH as (r & R & ED & IP). unfold v, block_first. set (d := piece_of (r_nt rd) (Z.of_nat p) i) in *. set (t := rw_tcnt memmax (r_ns rd)) in *.
    assert (N64 : in_u64 (r_nt rd)) by (unfold in_u64, two64; lia). destruct (rw_piece_eq (r_nt rd) (Z.of_nat p) r N64 R) as (d' & E' & _ & G0 & _). rewrite ED in E'. injection E' as E'. rewrite <- E' in G0. clear E'.
    pose proof (Z.mul_div_le (i - global_offset d) t T0). assert (0 <= t * ((i - global_offset d) / t)) by (apply Z.mul_nonneg_nonneg; [lia|apply Z.div_pos; lia]). lia. }
  assert (HB : mem_bytes (source_header v hd)) by (apply source_hd_bytes, header_bytes, CB).
  assert (P71 : int16_at (source_header v hd) 71 = int16_at hd 71) by reflexivity. rewrite P71 in HC. specialize (US i I). fold hd in US.
  assert (PL : plain_scale (int16_at hd 71)) by (unfold plain_scale; cbn; lia). specialize (HC PL).
  assert (FA : factor (int16_at hd 71) = 1%R) by (destruct US as [E|E]; rewrite E; reflexivity).
  split; [|split; [|split; [|split; [|exact HS]]]].
  - rewrite (HC 73 ltac:(cbn; tauto)). unfold coordinate. rewrite P71, FA, Rmult_1_r, int32_rd by (intros; apply HB). change (73 - 1) with 72. rewrite source_x by (unfold in_s32; lia). reflexivity.
  - rewrite (HC 77 ltac:(cbn; tauto)). unfold coordinate. rewrite P71, FA, Rmult_1_r, int32_rd by (intros; apply HB). change (77 - 1) with 76. rewrite source_y by (unfold in_s32; lia). reflexivity.
  - intros l L. rewrite (HC l ltac:(cbn in *; tauto)). destruct L as [<-|[<-|[<-|[<-|[]]]]]; reflexivity.
  - intros l L. rewrite (HI l L). destruct L as [<-|[<-|[<-|[<-|[]]]]]; reflexivity.
Qed.
Print Assumptions C102_source_partial.
(** C102 refuted: a command line with -p or -t is undefined behaviour before any file is
    opened, wherever the option stands and whatever comes with it. *)
Theorem C102_options_refuted :
  forall parse before c after, (c = 112 \/ c = 116) -> (forall x a, In (x, a) before -> x = 105 \/ x = 111) ->
  rw_start parse (before ++ (c, None) :: after) = Undefined_start.
Proof.
  intros parse before c after _ HB. unfold rw_start. generalize (mkSettings None None 2147483648 false false). induction before as [|(x, a) before IH]; intros s; [reflexivity|].
  cbn [app rw_options]. destruct a as [a|]; [|reflexivity]. destruct (HB x (Some a) (or_introl eq_refl)) as [->| ->]; apply IH; intros y b Q; apply (HB y b); right; exact Q.
Qed.
Print Assumptions C102_options_refuted.
(** The same program started without them runs with what it was given. *)
Theorem C102_plain_options : forall parse i o m n, parse m = Some n ->
  rw_start parse [(105, Some i); (111, Some o)] = Run (mkSettings (Some i) (Some o) 2147483648 false false) /\
  rw_start parse [(105, Some i); (109, Some m); (111, Some o)] = Run (mkSettings (Some i) (Some o) n false false).
Proof. intros parse i o m n E. unfold rw_start. cbn [rw_options Z.eqb Pos.eqb o_in o_out o_mem o_prm o_trc]. rewrite E. split; reflexivity. Qed.
Print Assumptions C102_plain_options.

(** C109, the part that holds: what -t writes, sample by sample.  The headers are copied. *)
Theorem C109_linear_partial :
  forall maxSize memmax sizes0 f rd, copyable maxSize memmax sizes0 f rd -> r_nt rd <= 2 ^ 40 ->
  forall p, (0 < p)%nat ->
  forall (sizes : nat -> Z -> Z -> list Z) (m0 : nat -> Z -> Z -> mem), (forall r x y, mem_bytes (m0 r x y)) ->
  (exists n, forall r, (r < p)%nat -> exists ops, creadwrite_t maxSize (sizes r) (m0 r) rd f memmax None (Z.of_nat p) (Z.of_nat r) = Some ops /\ length ops = n) /\
  forall h f0, file_bytes f0 -> (forall x, In x h -> (fst x < p)%nat) ->
  (forall r, (r < p)%nat -> creadwrite_t maxSize (sizes r) (m0 r) rd f memmax None (Z.of_nat p) (Z.of_nat r) = Some (rank_ops h r)) ->
  exists f', write_file maxSize p h f0 = Some f' /\ fsize f' = 3600 + r_nt rd * (240 + 4 * r_ns rd) /\
  forall i, 0 <= i < r_nt rd -> exists d, process_has (r_nt rd) (Z.of_nat p) d i /\
    let hd := disk_header f (r_ns rd) i in let hd' := disk_header f' (r_ns rd) i in let b := rw_tcnt memmax (r_ns rd) in
    (forall l, In l copied_ints -> int32_at hd' l = int32_at hd l) /\
    (plain_scale (int16_at hd 71) -> forall l, In l copied_coordinates -> coordinate hd' l 71 = coordinate hd l 71) /\
    (forall k, 0 <= k < r_ns rd ->
       match line_written (block_first d b i) (block_count d b i) (r_ns rd) i k with
       | Some x => sample_is (disk_sample f' (r_ns rd) i k) x
       | None => disk_sample f' (r_ns rd) i k = disk_sample f (r_ns rd) i k
       end).
Proof.
  intros maxSize memmax sizes0 f rd C NT p P sizes m0 MB. assert (PF : false = true -> r_nt rd <= 2147480000 /\ unscaled f (r_nt rd) (r_ns rd)) by discriminate. split.
  { exact (options_run maxSize memmax sizes0 f rd C p P sizes m0 MB false true PF). }
  intros h f0 FB0 RK RUN.
  destruct (options_written maxSize memmax sizes0 f rd C p P sizes m0 MB false true PF h f0 3600 [] FB0 ltac:(lia) RK RUN) as (f' & rd' & W & SZ & _ & _ & _ & _ & _ & Q).
  exists f'. split; [exact W|]. split; [exact SZ|]. intros i I. destruct (Q i I) as (PH & HI & HC & HS). clear Q W SZ. exists (piece_of (r_nt rd) (Z.of_nat p) i). split; [exact PH|]. cbv zeta.
  pose proof (opt_tcnt maxSize memmax sizes0 f rd C) as T0. pose proof C as [CO CB CS (CM & CM2) CN CT CF CI CMM]. clear CO. unfold opt_hdr, opt_smp, opt_first, opt_count in *. cbn [andb] in HS.
  split; [exact HI|]. split; [exact HC|]. intros k K. rewrite (HS k K). cbv zeta. unfold line_written. cbv zeta.
  destruct PH as (r & R & ED & IP). set (d := piece_of (r_nt rd) (Z.of_nat p) i) in *. set (t := rw_tcnt memmax (r_ns rd)) in *. set (v := block_first d t i) in *. set (c := block_count d t i) in *.
  assert (P40 : 2 ^ 40 = 1099511627776) by reflexivity.
  assert (V : 0 <= v <= i /\ 0 < c).
  { assert (N64 : in_u64 (r_nt rd)) by (unfold in_u64, two64; lia). destruct (rw_piece_eq (r_nt rd) (Z.of_nat p) r N64 R) as (d' & E' & _ & G0 & _). rewrite ED in E'. injection E' as E'. rewrite <- E' in G0. clear E'.
    unfold c, block_count. fold v. unfold v, block_first. pose proof (Z.mul_div_le (i - global_offset d) t T0). assert (0 <= t * ((i - global_offset d) / t)) by (apply Z.mul_nonneg_nonneg; [lia|apply Z.div_pos; lia]). lia. }
  set (x := (i - v) * r_ns rd + k). destruct (Z.ltb_spec x (c - 1 + r_ns rd)); [|reflexivity].
  apply line_single; lia.
Qed.
Print Assumptions C109_linear_partial.
(** C109, the part that holds: blocks of one trace. *)
Theorem C109_single_trace_blocks :
  forall maxSize memmax sizes0 f rd, copyable maxSize memmax sizes0 f rd -> r_nt rd <= 2 ^ 40 -> memmax < 2 * Z.max 240 (4 * r_ns rd) ->
  forall p, (0 < p)%nat ->
  forall (sizes : nat -> Z -> Z -> list Z) (m0 : nat -> Z -> Z -> mem), (forall r x y, mem_bytes (m0 r x y)) ->
  forall h f0, file_bytes f0 -> (forall x, In x h -> (fst x < p)%nat) ->
  (forall r, (r < p)%nat -> creadwrite_t maxSize (sizes r) (m0 r) rd f memmax None (Z.of_nat p) (Z.of_nat r) = Some (rank_ops h r)) ->
  exists f', write_file maxSize p h f0 = Some f' /\
  forall i k, 0 <= i < r_nt rd -> 0 <= k < r_ns rd -> sample_is (disk_sample f' (r_ns rd) i k) (2 * k + i).
Proof.
  intros maxSize memmax sizes0 f rd C NT M2 p P sizes m0 MB h f0 FB0 RK RUN.
  destruct (C109_linear_partial maxSize memmax sizes0 f rd C NT p P sizes m0 MB) as (_ & Q). destruct (Q h f0 FB0 RK RUN) as (f' & W & _ & H). clear Q. exists f'. split; [exact W|]. clear W.
  intros i k I K. destruct (H i I) as (d & (r & R & ED & IP) & _ & _ & HS). specialize (HS k K). cbv zeta in HS.
  pose proof C as [CO CB CS (CM & CM2) CN CT CF CI CMM]. clear CO.
  assert (T1 : rw_tcnt memmax (r_ns rd) = 1).
  { unfold rw_tcnt. rewrite getDFSz_exact by (unfold two64; lia). change getMDSz with 240. destruct (Z.ltb_spec 240 (4 * r_ns rd)); symmetry; apply (Z.div_unique _ _ _ (memmax - Z.max 240 (4 * r_ns rd))); lia. }
  rewrite T1 in HS. unfold line_written, block_count, block_first in HS. rewrite Z.div_1_r in HS. replace (global_offset d + 1 * (i - global_offset d)) with i in HS by lia.
  replace (Z.min 1 (global_offset d + local_size d - i)) with 1 in HS by lia. cbv zeta in HS. replace ((i - i) * r_ns rd + k) with k in HS by lia. change (1 - 1) with 0 in HS.
  replace (k <? 0 + r_ns rd) with true in HS by lia. replace (2 * Z.max 0 (k - 0) + i) with (2 * k + i) in HS by lia. exact HS.
Qed.
Print Assumptions C109_single_trace_blocks.
(** C109 refuted: three traces of two samples, a limit of two traces.  Sample 0 of trace 1
    should be 0, the first trace of its block; it is 2. *)
Theorem C109_linear_refuted :
  exists rd, copyable 4000 500 [] (source_file 250) rd /\ r_nt rd = 3 /\ r_ns rd = 2 /\
  exists h f', (forall x, In x h -> (fst x < 1)%nat) /\ creadwrite_t 4000 (fun _ _ => []) (fun _ _ _ => 0) rd (source_file 250) 500 None 1 0 = Some (rank_ops h 0) /\
  write_file 4000 1 h (mkFile 0 (fun _ => 0)) = Some f' /\
  sample_is (disk_sample f' 2 1 0) 2 /\ ~ sample_is (disk_sample f' 2 1 0) 0.
Proof.
  destruct C101_nonvacuous as (rd & C & T & N & _). exists rd. split; [exact C|]. split; [exact T|]. split; [exact N|].
  assert (P40 : 2 ^ 40 = 1099511627776) by reflexivity.
  destruct (C109_linear_partial 4000 500 [] (source_file 250) rd C ltac:(lia) 1%nat ltac:(lia) (fun _ _ _ => []) (fun _ _ _ _ => 0)) as ((n & RUN) & Q); [intros r x y a; unfold is_byte; lia|].
  destruct (RUN 0%nat ltac:(lia)) as (ops & E & _). clear RUN. change (Z.of_nat 1) with 1 in *. change (Z.of_nat 0) with 0 in *.
  set (h := map (fun o => (0%nat, o)) ops).
  assert (RO : rank_ops h 0 = ops).
  { unfold h, rank_ops. clear E Q. induction ops as [|o ops IH]; [reflexivity|]. cbn [map filter fst Nat.eqb snd]. f_equal. exact IH. }
  assert (RK : forall x, In x h -> (fst x < 1)%nat) by (intros x X; unfold h in X; apply in_map_iff in X; destruct X as (o & <- & _); cbn; lia).
  destruct (Q h (mkFile 0 (fun _ => 0))) as (f' & W & _ & H); [intros x; cbn; unfold is_byte; lia|exact RK| |].
  { intros r R. assert (r = 0%nat) by lia. subst r. change (Z.of_nat 0) with 0. rewrite RO. exact E. }
  exists h, f'. split; [exact RK|]. split; [rewrite RO; exact E|]. split; [exact W|]. clear W E Q.
  destruct (H 1 ltac:(lia)) as (d & (r & R & ED & IP) & _ & _ & HS). specialize (HS 0 ltac:(lia)). cbv zeta in HS. rewrite T in ED. assert (r = 0) by lia. subst r.
  assert (D : block_decomposition 3 1 0 = Some (mkPiece 0 3)) by reflexivity. rewrite D in ED. injection ED as <-. rewrite N in HS.
  change (rw_tcnt 500 2) with 2 in HS. change (line_written (block_first (mkPiece 0 3) 2 1) (block_count (mkPiece 0 3) 2 1) 2 1 0) with (Some 2) in HS. cbv iota in HS.
  split; [exact HS|]. intros (_ & Z0). destruct HS as (_ & S2). rewrite Z0 in S2. rewrite !single_rnd, !FloatProofs.int_rnd in S2 by (vm_compute; discriminate). apply eq_IZR in S2. discriminate.
Qed.
Print Assumptions C109_linear_refuted.
Example C109_nonvacuous : exists rd, copyable 4000 300 [] (source_file 250) rd /\ r_nt rd = 3 /\ r_ns rd = 2 /\ 300 < 2 * Z.max 240 (4 * r_ns rd).
Proof.
  destruct C101_nonvacuous as (rd & [CO CB CS CM CN CT CF CI CMM] & T & N & _). exists rd. split; [constructor; try assumption; rewrite N; unfold two64; lia|]. split; [exact T|]. split; [exact N|]. rewrite N. cbn. lia.
Qed.
(** The hypotheses of C102_source_partial. *)
Definition unscaled_byte (q : Z) : Z := if q <? 3600 then source_byte 250 q else if ((q - 3600) mod 248 =? 70) || ((q - 3600) mod 248 =? 71) then 0 else q mod 7.
Definition unscaled_file : file := mkFile 4344 unscaled_byte.
Lemma unscaled_bytes : file_bytes unscaled_file.
Proof.
  intros q. unfold unscaled_file, unscaled_byte. cbn [fbyte]. destruct (Z.ltb_spec q 3600) as [L|L].
  - apply (source_bytes 250 ltac:(unfold is_byte; lia) q).
  - destruct (_ || _); [unfold is_byte; lia|]. pose proof (Z.mod_pos_bound q 7 ltac:(lia)). unfold is_byte. lia.
Qed.
Example C102_source_nonvacuous : exists rd, copyable 4000 500 [] unscaled_file rd /\ r_nt rd = 3 /\ r_ns rd = 2 /\ r_nt rd <= 2147480000 /\ unscaled unscaled_file (r_nt rd) (r_ns rd) /\
  int32_at (disk_header unscaled_file 2 1) 81 <> 0.
Proof.
  assert (SZ : 3600 <= fsize unscaled_file < two64) by (cbn [unscaled_file fsize]; unfold two64; lia).
  destruct (open_total 4000 [] unscaled_file ltac:(lia) unscaled_bytes ltac:(lia)) as (rd & E).
  { assert (Q : int16_at (fbyte unscaled_file) 3221 = 2) by reflexivity. lia. }
  exists rd. destruct (open_inv 4000 [] unscaled_file rd ltac:(lia) unscaled_bytes SZ E) as (A1 & A2 & A3 & A4 & A5 & _).
  assert (N : r_ns rd = 2) by (rewrite A1; reflexivity). assert (T : r_nt rd = 3) by (rewrite A5, N; reflexivity).
  split; [|split; [exact T|split; [exact N|split; [clear -T; lia|split]]]].
  - constructor; [exact E|exact unscaled_bytes|exact SZ|..]; clear - N T; rewrite ?N, ?T; [lia|lia|lia|vm_compute; discriminate|vm_compute; discriminate|unfold two64; lia].
  - clear - N T. rewrite T, N. intros i I. left. assert (H : i = 0 \/ i = 1 \/ i = 2) by lia. destruct H as [H|[H|H]]; subst i; vm_compute; reflexivity.
  - vm_compute. discriminate.
Qed.
