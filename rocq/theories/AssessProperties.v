(** C120: the listing of SEG-Y files. C121: opening one file many times. *)
From Coq Require Import Reals Lra.
From Flocq Require Import Core IEEE754.BinarySingleNaN.
From Verif Require Import Base DataIOModel DoubleModel ParamModel ParamProofs ScalarProofs LayoutModel FileSpec FileModel CopySpec SortProofs MinMaxProofs CompProofs DecompProofs WriteProofs  ExampleProofs CopyProofs CharEncModel AssessModel AssessSpec AssessProofs.
Import ListNotations.
Open Scope Z_scope.

(** A file whose header can be read. *)
Definition legible (f : file) : Prop := file_bytes f /\ 3600 <= fsize f < two64 /\ 0 <= int16_at (fbyte f) 3221.
(** What is said of a file: samples per trace and interval as in the header, the text, and
    the number of whole traces that fit the size. *)
Record described (f : file) (rd : reader) : Prop := mkDescribed {
  de_ns : r_ns rd = int16_at (fbyte f) 3221;
  de_nt : r_nt rd * (240 + 4 * r_ns rd) <= fsize f - 3600 < (r_nt rd + 1) * (240 + 4 * r_ns rd);
  de_inc : r_inc rd = dmul incFactor (d_of_Z (int16_at (fbyte f) 3217));
  de_text : r_text rd = read_text (map (fbyte f) (zr 3200)) }.
Lemma open_described maxSize sizes f : 3600 <= maxSize -> legible f -> exists rd, open_file maxSize sizes f = Some rd /\ described f rd.
Proof.
  intros M (FB & SZ & NS). destruct (open_total maxSize sizes f M FB ltac:(lia) NS) as (rd & E). exists rd. split; [exact E|]. destruct (open_inv maxSize sizes f rd M FB SZ E) as (A1 & A2 & _ & A4 & A5 & _). clear E.
  assert (R : int16_at (fbyte f) 3221 <= 32767) by (rewrite int16_rd by apply FB; pose proof (rd16_range (fbyte f) (3221 - 1)) as Q; unfold in_s16 in Q; lia).
  assert (N : r_ns rd = int16_at (fbyte f) 3221) by (rewrite A1; apply u64_small; unfold in_u64, two64; lia).
  constructor; [exact N| |exact A2|exact A4]. assert (G : getDOSz (r_ns rd) = 240 + 4 * r_ns rd).
  { unfold getDOSz, getMDSz, getDFSz. rewrite N. rewrite (u64_small (int16_at (fbyte f) 3221 * 4)) by (unfold in_u64, two64; lia). rewrite u64_small by (unfold in_u64, two64; lia). lia. }
  rewrite G in A5. rewrite A5. set (z := fsize f - 3600) in *. assert (K : 0 < 240 + 4 * r_ns rd) by (rewrite N; lia). set (k := 240 + 4 * r_ns rd) in *. pose proof (Z.div_mod z k ltac:(lia)) as D. pose proof (Z.mod_pos_bound z k K) as B. lia.
Qed.

(** C120: for every list of names, the program counts them all and describes exactly those
    that end in sgy or segy, in any mix of cases, in their order. *)
Theorem C120_listing :
  forall maxSize sizes names, 3600 <= maxSize -> (forall x, In x names -> segy_name (fst x) -> legible (snd x)) ->
  exists chosen l, assess maxSize sizes names = Some (length names, l) /\ picks (fun x => segy_name (fst x)) names chosen /\
  Forall2 (fun x rep => fst rep = fst x /\ described (snd x) (snd rep)) chosen l.
Proof.
  intros maxSize sizes names M H. unfold assess. set (ch := filter (fun x => regex_match segy_re (fst x)) names).
  assert (P : picks (fun x => segy_name (fst x)) names ch) by (apply filter_picks; intros x; apply segy_lang).
  destruct (omap_forall2 (fun x => obind (open_file maxSize sizes (snd x)) (fun rd => Some (fst x, rd))) (fun x rep => fst rep = fst x /\ described (snd x) (snd rep)) ch) as (l & E & F).
  { intros x X. destruct (picks_in _ _ _ _ P X) as (I & S). destruct (open_described maxSize sizes (snd x) M (H x I S)) as (rd & E & D). exists (fst x, rd). rewrite E. split; [reflexivity|]. split; [reflexivity|exact D]. }
  rewrite E. exists ch, l. split; [reflexivity|]. split; [exact P|exact F].
Qed.
Print Assumptions C120_listing.
(** "a.SgY" and "xsegy" are listed, "a.sgy.bak", "sgy/" and "gy" are not. *)
Example C120_names : map (regex_match segy_re) [[97; 46; 83; 103; 89]; [120; 115; 101; 103; 121]; [97; 46; 115; 103; 121; 46; 98; 97; 107]; [115; 103; 121; 47]; [103; 121]] = [true; true; false; false; false].
Proof. reflexivity. Qed.
Definition small_file : file := mkFile 4000 (fun q => if q =? 3217 then 250 else if q =? 3221 then 1 else 0).
Example C120_nonvacuous : legible small_file /\ segy_name [97; 46; 83; 103; 89] /\ ~ segy_name [115; 103; 121; 47].
Proof.
  split; [split; [|split]|split].
  - intros q. unfold small_file, is_byte. cbn [fbyte]. destruct (q =? 3217); [lia|]. destruct (q =? 3221); lia.
  - cbn [small_file fsize]. unfold two64. lia.
  - vm_compute. discriminate.
  - apply segy_lang. reflexivity.
  - intros S. apply segy_lang in S. discriminate.
Qed.

Lemma inc_fin f : file_bytes f -> fin (dmul incFactor (d_of_Z (int16_at (fbyte f) 3217))).
Proof.
  intros FB. assert (R : -32768 <= int16_at (fbyte f) 3217 <= 32767) by (rewrite int16_rd by apply FB; pose proof (rd16_range (fbyte f) (3217 - 1)) as Q; unfold in_s16 in Q; lia).
  set (z := int16_at (fbyte f) 3217) in *. clearbody z. destruct (d_of_Z_exact z) as (V & F); [change (2 ^ 53) with 9007199254740992; lia|].
  assert (FI : fin incFactor) by (vm_compute; reflexivity).
  assert (VB : (0 <= val incFactor <= 1)%R).
  { unfold val. rewrite <- SF2R_B2SF. let e := eval vm_compute in (B2SF incFactor) in assert (E : B2SF incFactor = e) by (vm_compute; reflexivity). rewrite E. cbn [SF2R cond_Zopp]. unfold F2R. cbn [Fnum Fexp]. split; [apply Rmult_le_pos; [apply IZR_le; discriminate|apply bpow_ge_0]|]. cbn. lra. }
  destruct (dmul_spec incFactor (d_of_Z z)) as (_ & DF).
  - rewrite V. assert (AB : (Rabs (val incFactor * IZR z) <= bpow radix2 50)%R).
    { rewrite Rabs_mult, (Rabs_pos_eq (val incFactor)) by lra. apply Rle_trans with (1 * 32768)%R; [apply Rmult_le_compat; [lra|apply Rabs_pos|lra|rewrite <- abs_IZR; apply IZR_le; lia]|]. cbn. lra. }
    apply Rle_lt_trans with (bpow radix2 50); [|apply bpow_lt; lia]. apply abs_round_le_generic; [typeclasses eauto|typeclasses eauto| |exact AB]. apply generic_format_bpow. unfold fx. cbn. lia.
  - unfold fin in *. rewrite DF. first [assumption|split; assumption|rewrite FI, F; reflexivity].
Qed.
(** C121: opening a file any number of times, in any number of rounds, whatever chunks the
    reads are cut into, gives the same text, sizes and interval; the program ends normally. *)
Theorem C121_same_readings :
  forall maxSize f rnum fnum first sizes, 3600 <= maxSize -> legible f -> (rnum <= fnum)%nat ->
  let opens i j := open_file maxSize (sizes i j) f in
  (forall i j, opens i j = open_file maxSize first f) /\ (exists rd, open_file maxSize first f = Some rd /\ described f rd) /\
  many_files rnum fnum (open_file maxSize first f) opens = Some true.
Proof.
  intros maxSize f rnum fnum first sizes M L R opens. pose proof L as (FB & SZ & NS). destruct (open_described maxSize first f M L) as (rd & E & D).
  assert (ALL : forall i j, opens i j = Some rd).
  { intros i j. unfold opens. destruct (open_total maxSize (sizes i j) f M FB ltac:(lia) NS) as (rd' & E'). rewrite E'. f_equal. destruct (open_inv maxSize (sizes i j) f rd' M FB SZ E') as (B1 & B2 & B3 & B4 & B5 & _). destruct (open_inv maxSize first f rd M FB SZ E) as (A1 & A2 & A3 & A4 & A5 & _).
    clear E E' D. destruct rd as [a b c d e], rd' as [a' b' c' d' e']. cbn [r_ns r_nt r_inc r_format r_text] in *. rewrite <- A1 in B1. subst a'. rewrite <- A5 in B5. rewrite <- A2 in B2. rewrite <- A3 in B3. rewrite <- A4 in B4. subst. reflexivity. }
  rewrite E. split; [intros i j; apply ALL|]. split; [exists rd; split; [reflexivity|exact D]|]. clearbody opens. clear E. unfold many_files. cbn [obind].
  rewrite rounds_form; [|intros i I; apply in_seq in I; lia|intros i j _ _; rewrite ALL; discriminate]. f_equal. apply forallb_forall. intros i _. rewrite ALL. unfold agrees. rewrite same_prefix_refl, !Z.eqb_refl. cbn [andb].
  assert (FI : fin (r_inc rd)) by (rewrite (de_inc _ _ D); apply inc_fin, FB). apply (deqb_spec _ _ (fin_num _ FI) (fin_num _ FI)). reflexivity.
Qed.
Print Assumptions C121_same_readings.
Example C121_nonvacuous : legible small_file /\ (10 <= 1000)%nat. Proof. split; [apply C120_nonvacuous|lia]. Qed.

(** Refuted: the program would notice a handle that reads something else.  In round i only
    handle i is looked at: whatever all the others read, the program ends normally. *)
Theorem C121_other_handles_refuted :
  forall rnum fnum (first : reader) opens, (rnum <= fnum)%nat -> (forall i j, opens i j <> None) ->
  (forall i, (i < rnum)%nat -> exists h, opens i i = Some h /\ agrees first h = true) -> many_files rnum fnum (Some first) opens = Some true.
Proof.
  intros rnum fnum first opens R H A. unfold many_files. cbn [obind]. rewrite rounds_form; [|intros i I; apply in_seq in I; lia|intros i j _ _; apply H]. f_equal. apply forallb_forall. intros i I. apply in_seq in I. destruct (A i ltac:(lia)) as (h & -> & Q). exact Q.
Qed.
Print Assumptions C121_other_handles_refuted.
(** Ten rounds of a thousand handles: 9990 wrong readings go unnoticed. *)
Example C121_unnoticed : let good := mkR 1 1 (d_of_Z 0) 5 [] in let bad := mkR 2 7 (d_of_Z 3) 1 [] in
  many_files 10 1000 (Some good) (fun i j => if (i =? j)%nat then Some good else Some bad) = Some true /\ agrees good bad = false.
Proof.
  intros good bad. split; [|vm_compute; reflexivity]. apply C121_other_handles_refuted; [lia|intros i j; destruct (i =? j)%nat; discriminate|]. intros i I. exists good. rewrite Nat.eqb_refl. split; [reflexivity|vm_compute; reflexivity].
Qed.
