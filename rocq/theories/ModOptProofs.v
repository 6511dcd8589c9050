(** Proofs about the options of the copier. *)
From Coq Require Import Reals Lra.
From Flocq Require Import Core IEEE754.BinarySingleNaN.
From Verif Require Import Base DecompModel DecompSpec DecompProofs NumEncModel NumEncSpec NumEncProofs CharEncModel CharEncProofs LayoutModel LayoutProofs DataIOModel DataIOProofs
  RuleModel RuleProofs DoubleModel ParamModel ParamProofs HeaderProofs ScalarProofs CompProofs FileSpec FileModel FileProofs WriteSpec WriteProofs ParamProperties ReadProofs OpenProofs FileProperties TraceProperties.
From Verif Require Import FloatModel FloatProofs SetOpsModel SetOpsProofs CopySpec CopyProofs ExampleModel ExampleProofs CopyProperties PieceProofs CreateSpec CreateProofs ModModel ModSpec ModProofs.
Import ListNotations.
Open Scope Z_scope.

(** ---- the traces of a process ---- *)
Definition piece_of (nt p i : Z) : piece :=
  match find (fun r => let d := rw_piece nt p r in (global_offset d <=? i) && (i <? global_offset d + local_size d)) (zr p) with
  | Some r => rw_piece nt p r
  | None => mkPiece 0 0
  end.
Lemma piece_of_eq nt p r d i : in_u64 nt -> 0 <= r < p -> block_decomposition nt p r = Some d -> 0 <= global_offset d -> global_offset d + local_size d <= nt -> global_offset d <= i < global_offset d + local_size d -> piece_of nt p i = d.
Proof.
  intros N R E D0 D1 I. unfold piece_of. destruct (find _ _) as [r'|] eqn:FD.
  - apply find_some in FD. destruct FD as (A & B). apply in_zr in A. apply andb_true_iff in B. destruct B as (B1 & B2). apply Z.leb_le in B1. apply Z.ltb_lt in B2.
    destruct (block_decomposition_shares nt p N ltac:(lia)) as (_ & SH & _). destruct (SH i ltac:(lia)) as (r0 & _ & U).
    assert (r0 = r). { apply U. split; [exact R|]. exists d. split; [exact E|]. unfold in_piece. exact I. }
    assert (r0 = r').
    { apply U. split; [exact A|]. destruct (rw_piece_eq nt p r' N A) as (d' & E' & EP & _). rewrite EP in *. exists d'. split; [exact E'|]. unfold in_piece. lia. }
    unfold rw_piece. replace r' with r by lia. rewrite E. reflexivity.
  - exfalso. pose proof (find_none _ _ FD r ltac:(apply in_zr; exact R)) as Q. unfold rw_piece in Q. rewrite E in Q. cbv zeta in Q. apply andb_false_iff in Q. rewrite Z.leb_gt, Z.ltb_ge in Q. lia.
Qed.

(** ---- what a program of blocks writes ---- *)
Section Written.
Context (maxSize : Z) (sizes0 : list Z) (f : file) (rd : reader) (memmax : Z) (p : nat) (h : history) (f0 : file) (maxSize' : Z) (sizes' : list Z)
  (blk : nat -> Z * Z -> option wop) (smp : Z -> Z -> Z) (hdr : Z -> mem) (full : bool).
Context (RD : readable maxSize sizes0 f rd) (MM : Z.max 240 (4 * r_ns rd) <= memmax < two64) (P : (0 < p)%nat).
Definition block_ok (r : nat) (b : Z * Z) : Prop := exists sz trc prm, blk r b = Some (WTrace sz (Range (fst b) (snd b)) trc (Some prm) 0) /\
  (full = true -> trc <> None) /\ (full = false -> trc = None) /\
  (forall m, trc = Some m -> mem_bytes m /\ forall j k, 0 <= j < snd b -> 0 <= k < r_ns rd -> sample m (j * r_ns rd + k) = smp (fst b + j) k) /\
  wf_param prm /\ p_rule prm = default_rule /\ p_sz prm = snd b /\ forall j, 0 <= j < snd b -> holds prm j (hdr (fst b + j)).
Context (HB : forall r d b, (r < p)%nat -> block_decomposition (r_nt rd) (Z.of_nat p) (Z.of_nat r) = Some d -> 0 <= global_offset d -> 0 <= local_size d -> global_offset d + local_size d <= r_nt rd ->
    aligned (global_offset d) (local_size d) (rw_tcnt memmax (r_ns rd)) b -> block_ok r b).
Definition made (b : Z * Z) (o : wop) : Prop := exists sz trc prm, o = WTrace sz (Range (fst b) (snd b)) trc (Some prm) 0 /\
  (full = true -> trc <> None) /\ (full = false -> trc = None) /\
  (forall m, trc = Some m -> mem_bytes m /\ forall j k, 0 <= j < snd b -> 0 <= k < r_ns rd -> sample m (j * r_ns rd + k) = smp (fst b + j) k) /\
  wf_param prm /\ p_rule prm = default_rule /\ p_sz prm = snd b /\ forall j, 0 <= j < snd b -> holds prm j (hdr (fst b + j)).
Lemma blocks_run : exists n, forall r, (r < p)%nat -> exists ops, block_program (blk r) rd memmax (Z.of_nat p) (Z.of_nat r) = Some ops /\ length ops = n.
Proof.
  pose proof RD as [CO CB CS (CM & CM2) CN CT CI]. destruct (open_fits _ _ _ _ CM CB CS CO CN) as (F & HT). clear CO.
  exists (4 + Z.to_nat (nblk (rw_biggest (r_nt rd) (Z.of_nat p)) (rw_tcnt memmax (r_ns rd))))%nat. intros r R.
  destruct (rank_blocks (blk r) made rd memmax (Z.of_nat p) (Z.of_nat r) F ltac:(lia) MM CT) as (ws & d & E & _ & _ & _ & _ & _ & _ & LN & _).
  { intros d b E D0 D1 D2 A. destruct (HB r d b R E D0 D1 D2 A) as (sz & trc & prm & EB & Q). eexists. split; [exact EB|]. exists sz, trc, prm. split; [reflexivity|exact Q]. }
  exists (announcements rd ++ ws). split; [exact E|]. rewrite app_length, <- LN, Nat2Z.id. reflexivity.
Qed.
Context (FB0 : file_bytes f0) (M' : 3600 <= maxSize') (RK : forall x, In x h -> (fst x < p)%nat)
  (RUN : forall r, (r < p)%nat -> block_program (blk r) rd memmax (Z.of_nat p) (Z.of_nat r) = Some (rank_ops h r)) (HD : forall i, mem_bytes (hdr i)).
Lemma blocks_written : exists f' rd', written_file maxSize p h f0 f' (r_nt rd) (r_ns rd) /\ asked_by_all h p = r_nt rd /\ fsize f' = 3600 + r_nt rd * (240 + 4 * r_ns rd) /\
  open_file maxSize' sizes' f' = Some rd' /\ r_ns rd' = r_ns rd /\ r_nt rd' = r_nt rd /\ r_inc rd' = r_inc rd /\ (plain_text (r_text rd) -> r_text rd' = r_text rd) /\
  (forall i, 0 <= i < r_nt rd -> process_has (r_nt rd) (Z.of_nat p) (piece_of (r_nt rd) (Z.of_nat p) i) i /\
     (forall l, In l copied_ints -> int32_at (disk_header f' (r_ns rd) i) l = int32_at (hdr i) l) /\
     (plain_scale (int16_at (hdr i) 71) -> forall l, In l copied_coordinates -> coordinate (disk_header f' (r_ns rd) i) l 71 = coordinate (hdr i) l 71) /\
     (full = true -> forall k, 0 <= k < r_ns rd -> disk_sample f' (r_ns rd) i k = smp i k)) /\
  (full = false -> forall i, 0 <= i < r_nt rd -> trace_at (r_ns rd) i + 240 + 4 * r_ns rd <= fsize f0 -> forall k, 0 <= k < r_ns rd -> disk_sample f' (r_ns rd) i k = disk_sample f0 (r_ns rd) i k).
Proof.
  pose proof RD as [CO CB CS (CM & CM2) CN CT CI]. destruct (open_fits _ _ _ _ CM CB CS CO CN) as (F & HT). clear CO. pose proof F as (N0 & NT0 & S64 & W64).
  set (ns := r_ns rd) in *. set (nt := r_nt rd) in *.
  assert (N64 : in_u64 nt). { assert (nt * 240 <= nt * (240 + 4 * ns)) by (apply Z.mul_le_mono_nonneg_l; lia). unfold in_u64; lia. }
  set (wr := fun r => skipn 4 (rank_ops h r)). set (tcnt := rw_tcnt memmax ns) in *.
  assert (WS : forall r, (r < p)%nat -> exists d, rank_ops h r = announcements rd ++ wr r /\ wr r <> [] /\ 0 < tcnt /\
     block_decomposition nt (Z.of_nat p) (Z.of_nat r) = Some d /\ 0 <= global_offset d /\ 0 <= local_size d /\ global_offset d + local_size d <= nt /\
     (forall o, In o (wr r) -> exists b, aligned (global_offset d) (local_size d) tcnt b /\ made b o) /\
     (forall i, global_offset d <= i < global_offset d + local_size d -> exists b o, In o (wr r) /\ made b o /\ aligned (global_offset d) (local_size d) tcnt b /\ fst b <= i < fst b + snd b)).
  { intros r R. destruct (rank_blocks (blk r) made rd memmax (Z.of_nat p) (Z.of_nat r) F ltac:(lia) MM CT) as (ws & d & E & NE & T0 & ED & D0 & D1 & D2 & _ & A & B).
    { intros d b E D0 D1 D2 A. destruct (HB r d b R E D0 D1 D2 A) as (sz & trc & prm & EB & Q). eexists. split; [exact EB|]. exists sz, trc, prm. split; [reflexivity|exact Q]. }
    rewrite (RUN r R) in E. injection E as E. assert (EW : wr r = ws) by (unfold wr; rewrite E; reflexivity). exists d. rewrite EW. repeat (split; [assumption|]). exact B. }
  assert (GW : forall r o, (r < p)%nat -> In o (wr r) -> good_write nt ns o /\ call_pieces smp hdr ns default_rule o /\ (full = false -> forall sz t m q sk, o <> WTrace sz t (Some m) q sk)).
  { intros r o R I. destruct (WS r R) as (d & _ & _ & T0 & _ & D0 & D1 & D2 & A & _). destruct (A o I) as (b & AL & sz & trc & prm & -> & F1 & F2 & SM & W & RL & SZ & H).
    destruct (aligned_range _ _ _ _ D1 T0 AL) as (B1 & B2 & B3). split; [|split].
    - cbn [good_write in_file write_fine tcount]. split; [lia|]. split; [lia|]. split; [intros m Q; apply (SM m Q)|]. split; [right; discriminate|]. intros q Q. injection Q as <-.
      apply holds_insert; [exact W|lia|lia|]. intros i I'. exists (hdr (fst b + i)). rewrite Z.add_0_r. apply H. exact I'.
    - cbn [call_pieces tcount tpos]. split; [intros m Q; apply (SM m Q)|]. intros q Q. injection Q as <-. split; [exact W|]. split; [exact RL|]. split; [lia|]. split; [lia|]. intros j J. rewrite Z.add_0_r. apply H. exact J.
    - intros FF sz' t m q sk Q. injection Q as _ _ Q _ _. rewrite (F2 FF) in Q. discriminate. }
  destruct (program_written maxSize sizes0 f rd p h f0 maxSize' sizes' wr RD P FB0 M' RK) as (f' & rd' & W & AN & SZ & O & Q1 & Q2 & Q3 & Q4).
  { intros r R. destruct (WS r R) as (d & E & _). exact E. }
  { intros r o R I. apply (GW r o R I). }
  { intros r R. destruct (WS r R) as (d & _ & E & _). exact E. }
  exists f', rd'. split; [exact W|]. split; [exact AN|]. split; [exact SZ|]. split; [exact O|]. clear O. split; [exact Q1|]. split; [exact Q2|]. split; [exact Q3|]. split; [exact Q4|]. clear Q1 Q2 Q3 Q4 SZ.
  assert (HC : forall x, In x h -> call_pieces smp hdr ns default_rule (snd x) /\ (full = false -> forall sz t m q sk, snd x <> WTrace sz t (Some m) q sk)).
  { intros (r1, o1) X. pose proof (RK _ X) as R1. cbn [fst snd] in *. pose proof (in_rank_ops _ _ _ X) as Y. destruct (WS r1 R1) as (d1 & E1 & _). rewrite E1 in Y. apply in_app_or in Y. destruct Y as [Y|Y].
    - destruct Y as [<-|[<-|[<-|[<-|[]]]]]; split; try exact Logic.I; discriminate.
    - destruct (GW r1 o1 R1 Y) as (_ & A & B). auto. }
  split.
  - intros i I. destruct (block_decomposition_shares nt (Z.of_nat p) N64 ltac:(lia)) as (_ & SH & _). destruct (SH i I) as (r0 & (R0 & pc & EP & IP) & _). unfold in_piece in IP.
    assert (RP : (Z.to_nat r0 < p)%nat) by lia. destruct (WS (Z.to_nat r0) RP) as (d & E & _ & T0 & ED & D0 & D1 & D2 & _ & B). rewrite Z2Nat.id in ED by lia. rewrite EP in ED. injection ED as ->.
    rewrite (piece_of_eq nt (Z.of_nat p) r0 d i N64 R0 EP D0 D2 IP). split; [exists r0; auto|].
    destruct (B i IP) as (b & o & OI & (sz & trc & prm & -> & F1 & F2 & _) & _ & BI).
    assert (IH : In (Z.to_nat r0, WTrace sz (Range (fst b) (snd b)) trc (Some prm) 0) h).
    { assert (IO : In (WTrace sz (Range (fst b) (snd b)) trc (Some prm) 0) (rank_ops h (Z.to_nat r0))) by (rewrite E; apply in_or_app; right; exact OI). unfold rank_ops in IO. apply in_map_iff in IO.
      destruct IO as ((r1 & o1) & EO1 & FI1). apply filter_In in FI1. destruct FI1 as (A & B'). cbn [fst snd] in *. apply Nat.eqb_eq in B'. subst. exact A. }
    destruct (history_pieces_headers maxSize p h f0 f' nt ns smp hdr default_rule W default_usable ltac:(vm_compute; reflexivity) ltac:(intros x X; apply (HC x X)) HD i) as (HL & _ & HF).
    { exists (Z.to_nat r0), sz, (Range (fst b) (snd b)), trc, prm, 0, (i - fst b). split; [exact IH|]. cbn [tcount tpos]. lia. }
    split; [|split].
    + intros l L. destruct (default_int l L) as (mm & e & LK & T & <-). apply (HL mm e LK T).
    + intros PL l L. destruct (default_coordinate l L) as (mm & e & LK & T & EL & SC). destruct (HF mm e LK T) as (_ & CO); [rewrite SC; exact PL|]. rewrite EL, SC in CO. exact CO.
    + intros FF. destruct trc as [m|]; [|exfalso; exact (F1 FF eq_refl)].
      apply (history_pieces_samples maxSize p h f0 f' nt ns smp hdr default_rule W ltac:(intros x X; apply (HC x X)) i).
      exists (Z.to_nat r0), sz, (Range (fst b) (snd b)), m, (Some prm), 0, (i - fst b). split; [exact IH|]. cbn [tcount tpos]. lia.
  - intros FF i I TS. destruct (life_samples _ _ _ _ _ _ _ W) as (_ & L2 & _). apply L2; [lia| |exact TS]. fold ns.
    destruct (last_samples ns h i) as [s|] eqn:LS; [|reflexivity]. exfalso. unfold last_samples in LS. apply (last_in (fun o => written ns o i)) in LS. destruct LS as [LS|(r1 & o1 & I1 & G)]; [discriminate|].
    destruct (HC _ I1) as (_ & Q). cbn [snd] in Q. destruct o1 as [| | | |sz t trc q sk]; try discriminate G. destruct trc as [m|]; [exact (Q FF sz t m q sk eq_refl)|discriminate G].
Qed.
End Written.

(** ---- the source written by -p ---- *)
Definition source_header (v : Z) (hd : mem) : mem := fun x =>
  if (72 <=? x) && (x <? 76) then nth (Z.to_nat (x - 72)) (to_big_endian 4 (1600 + v)) 0
  else if (76 <=? x) && (x <? 80) then nth (Z.to_nat (x - 76)) (to_big_endian 4 (2400 + v)) 0 else hd x.
Lemma source_hd_bytes v hd : mem_bytes hd -> mem_bytes (source_header v hd).
Proof.
  intros H x. unfold source_header. assert (X : forall w k, is_byte (nth k (to_big_endian 4 w) 0)).
  { intros w k. destruct (to_be_bytes 4 w) as (B & L). destruct (Nat.lt_ge_cases k 4) as [Q|Q]; [rewrite Forall_forall in B; apply B, nth_In; rewrite L; exact Q|rewrite nth_overflow by (rewrite L; exact Q); unfold is_byte; lia]. }
  destruct (_ && _); [apply X|]. destruct (_ && _); [apply X|apply H].
Qed.
Lemma be_rd32 w a (m : mem) : in_s32 w -> (forall k, (k < 4)%nat -> m (a + Z.of_nat k) = nth k (to_big_endian 4 w) 0) -> rd32 m a = w.
Proof.
  intros S E. rewrite <- (s32_id w S) at 1. rewrite <- dec32_be.
  destruct (to_be_bytes 4 w) as (_ & L). destruct (to_big_endian 4 w) as [|b0 [|b1 [|b2 [|b3 [|b4 t]]]]]; try discriminate L.
  pose proof (E 0%nat ltac:(lia)) as E0. pose proof (E 1%nat ltac:(lia)) as E1. pose proof (E 2%nat ltac:(lia)) as E2. pose proof (E 3%nat ltac:(lia)) as E3.
  cbn [nth] in *. change (Z.of_nat 0) with 0 in E0. change (Z.of_nat 1) with 1 in E1. change (Z.of_nat 2) with 2 in E2. change (Z.of_nat 3) with 3 in E3. rewrite Z.add_0_r in E0.
  unfold rd32. rewrite E0, E1, E2, E3. reflexivity.
Qed.
Lemma source_x v hd : in_s32 (1600 + v) -> rd32 (source_header v hd) 72 = 1600 + v.
Proof. intros S. apply be_rd32; [exact S|]. intros k K. destruct k as [|[|[|[|k]]]]; try lia; reflexivity. Qed.
Lemma source_y v hd : in_s32 (2400 + v) -> rd32 (source_header v hd) 76 = 2400 + v.
Proof. intros S. apply be_rd32; [exact S|]. intros k K. destruct k as [|[|[|[|k]]]]; try lia; reflexivity. Qed.
Lemma one_times s z : s = 0 \/ s = 1 -> Z.abs z <= 2 ^ 53 -> dmul (parse_scalar s) (d_of_Z z) = d_of_Z z.
Proof.
  intros S Z1. assert (E : parse_scalar s = d_of_Z 1) by (destruct S; subst s; reflexivity). rewrite E.
  destruct (d_of_Z_exact 1 ltac:(cbn; lia)) as (V1 & F1). destruct (d_of_Z_exact z Z1) as (V2 & F2).
  destruct (dmul_spec (d_of_Z 1) (d_of_Z z)) as (V & F).
  - rewrite V1, V2, Rmult_1_l, rn_int by exact Z1. apply ScalarProofs.int_small, Z1.
  - rewrite V1, V2, Rmult_1_l, rn_int in V by exact Z1. rewrite F1, F2 in F. cbn [andb] in F.
    destruct (Z.eq_dec z 0) as [->|NZ]; [reflexivity|]. apply (D_ext _ _ z); assumption.
Qed.
Lemma source_holds off n q : wf_param q -> p_rule q = default_rule -> p_sz q = n -> 0 <= n -> 0 <= off <= 2147480000 ->
  exists q', mod_params (Some source_1600_2400) off n q = Some q' /\ wf_param q' /\ p_rule q' = default_rule /\ p_sz q' = n /\
  forall j hd, 0 <= j < n -> rd16 hd 70 = 0 \/ rd16 hd 70 = 1 -> holds q j hd -> holds q' j (source_header off hd).
Proof.
  intros W R S N O.
  assert (L20 : lookup 20 (translate default_rule) = Some (mkEntry MFloat 0 73 71)) by (vm_compute; reflexivity).
  assert (L21 : lookup 21 (translate default_rule) = Some (mkEntry MFloat 1 77 71)) by (vm_compute; reflexivity).
  set (x := dadd (d_of_Z off) (d_of_Z 1600)). set (y := dadd (d_of_Z off) (d_of_Z 2400)).
  assert (P40 : 2 ^ 40 = 1099511627776) by reflexivity. assert (P53 : 2 ^ 53 = 9007199254740992) by reflexivity.
  assert (EX : x = d_of_Z (1600 + off)).
  { unfold x. rewrite Z.add_comm. destruct (d_of_Z_exact off ltac:(lia)). destruct (d_of_Z_exact 1600 ltac:(lia)). apply dadd_int; try assumption. lia. }
  assert (EY : y = d_of_Z (2400 + off)).
  { unfold y. rewrite Z.add_comm. destruct (d_of_Z_exact off ltac:(lia)). destruct (d_of_Z_exact 2400 ltac:(lia)). apply dadd_int; try assumption. lia. }
  destruct (set_rows default_rule (fun _ => [(20, VF x); (21, VF y)]) (fun _ m => if m =? 20 then VF x else VF y) n q W R ltac:(lia)) as (q' & E & W' & R' & S' & G & OT).
  { intros. cbn. constructor; [intros [Q|[]]; discriminate|constructor; [intros []|constructor]]. }
  { intros i m v I [Q|[Q|[]]]; pose proof (f_equal fst Q) as Q1; pose proof (f_equal snd Q) as Q2; cbn [fst snd] in Q1, Q2; clear Q; rewrite <- Q1, <- Q2.
    - exists (mkEntry MFloat 0 73 71). split; [exact L20|]. split; [exact Logic.I|reflexivity].
    - exists (mkEntry MFloat 1 77 71). split; [exact L21|]. split; [exact Logic.I|reflexivity]. }
  exists q'. split; [exact E|]. split; [exact W'|]. split; [exact R'|]. split; [lia|].
  intros j hd J SC H. clear E.
  pose proof (G j 20 J ltac:(cbn; tauto)) as GX. pose proof (G j 21 J ltac:(cbn; tauto)) as GY. cbn [Z.eqb Pos.eqb] in GX, GY. rewrite EX in GX. rewrite EY in GY. clear EX EY G.
  assert (OT' : forall m, m <> 20 -> m <> 21 -> getPrm j m q' = getPrm j m q). { intros m M1 M2. apply OT; [exact J|]. cbn. intros [Q|[Q|[]]]; lia. }
  clear OT. clearbody x y.
  intros m e v L D. rewrite R' in L. pose proof L as L0. apply default_entries in L. unfold holds in H. rewrite R in H. cbn [In] in L.
  repeat (destruct L as [L|L]; [pose proof (f_equal fst L) as M1; pose proof (f_equal snd L) as M2; cbn [fst snd] in M1, M2; clear L; rewrite <- M1 in *; rewrite <- M2 in *; clear M1 M2;
    first [discriminate D
          |rewrite OT' by lia; apply (H _ _ v L0); exact D
          |rewrite GX; rewrite <- D; unfold decode; cbn [e_type e_loc e_scal]; change (0 + (73 - 0 - 1)) with 72; change (0 + (71 - 0 - 1)) with 70; rewrite source_x by (unfold in_s32; lia);
             replace (rd16 (source_header off hd) 70) with (rd16 hd 70) by reflexivity; rewrite one_times by (assumption || lia); reflexivity
          |rewrite GY; rewrite <- D; unfold decode; cbn [e_type e_loc e_scal]; change (0 + (77 - 0 - 1)) with 76; change (0 + (71 - 0 - 1)) with 70; rewrite source_y by (unfold in_s32; lia);
             replace (rd16 (source_header off hd) 70) with (rd16 hd 70) by reflexivity; rewrite one_times by (assumption || lia); reflexivity]|]).
  destruct L.
Qed.

(** ---- the samples written by -t ---- *)
Definition line_value (off t : Z) : F := f_of_D (dadd (dmul (d_of_Z 2) (d_of_Z t)) (d_of_Z off)).
Lemma inc_sample off ns base m x : 0 <= x -> sample (linear_inc off ns base m) x = if (base <=? x) && (x <? base + ns) then enc_f (line_value off (x - base)) else sample m x.
Proof.
  intros X. unfold sample, le32, linear_inc.
  assert (Q : forall k, 0 <= k < 4 -> (4 * x + k) / 4 = x /\ (4 * x + k) mod 4 = k).
  { intros k K. split; [rewrite Z.mul_comm, Z.div_add_l, Z.div_small by lia; lia|rewrite Z.add_comm, Z.mul_comm, Z.mod_add, Z.mod_small by lia; reflexivity]. }
  destruct (Q 0 ltac:(lia)) as (A0 & B0). destruct (Q 1 ltac:(lia)) as (A1 & B1). destruct (Q 2 ltac:(lia)) as (A2 & B2). destruct (Q 3 ltac:(lia)) as (A3 & B3).
  rewrite Z.add_0_r in A0, B0. rewrite A0, A1, A2, A3, B0, B1, B2, B3.
  destruct ((0 <=? x - base) && (x - base <? ns)) eqn:C; apply andb_true_iff in C || apply andb_false_iff in C; rewrite ?Z.leb_le, ?Z.ltb_lt, ?Z.leb_gt, ?Z.ltb_ge in C.
  - replace ((base <=? x) && (x <? base + ns)) with true by (symmetry; apply andb_true_iff; lia). apply le_bytes_value, enc_range.
  - replace ((base <=? x) && (x <? base + ns)) with false by (symmetry; apply andb_false_iff; rewrite Z.leb_gt, Z.ltb_ge; lia). reflexivity.
Qed.
Lemma inc_bytes off ns base m : mem_bytes m -> mem_bytes (linear_inc off ns base m).
Proof. intros H q. unfold linear_inc. destruct (_ && _); [apply SetOpsProofs.le_bytes_byte|apply H]. Qed.
Lemma block_bytes off ns c m : mem_bytes m -> mem_bytes (linear_block off ns c m).
Proof. intros H. unfold linear_block. revert m H. induction (zr c) as [|j js IH]; intros m H; [exact H|]. cbn [fold_left]. apply IH, inc_bytes, H. Qed.
Lemma block_sample off ns m x : 0 < ns -> 0 <= x -> forall c, 0 <= c ->
  sample (linear_block off ns c m) x = if (0 <? c) && (x <? c - 1 + ns) then enc_f (line_value off (Z.max 0 (x - (c - 1)))) else sample m x.
Proof.
  intros N X c C. rewrite <- (Z2Nat.id c C). set (n := Z.to_nat c). clearbody n. clear c C. induction n as [|n IH]; [reflexivity|].
  unfold linear_block in *. unfold zr in *. rewrite Nat2Z.id in *. rewrite zrange_S, fold_left_app. cbn [fold_left]. rewrite inc_sample by exact X. rewrite IH. clear IH.
  rewrite Nat2Z.inj_succ.
  replace (0 <? Z.succ (Z.of_nat n)) with true by lia. cbn [andb].
  destruct ((Z.of_nat n <=? x) && (x <? Z.of_nat n + ns)) eqn:A; apply andb_true_iff in A || apply andb_false_iff in A; rewrite ?Z.leb_le, ?Z.ltb_lt, ?Z.leb_gt, ?Z.ltb_ge in A.
  - replace (x <? Z.succ (Z.of_nat n) - 1 + ns) with true by lia. do 2 f_equal. lia.
  - destruct A as [A|A].
    + replace (x <? Z.succ (Z.of_nat n) - 1 + ns) with true by lia. replace (0 <? Z.of_nat n) with true by lia. replace (x <? Z.of_nat n - 1 + ns) with true by lia. cbn [andb]. do 2 f_equal. lia.
    + replace (x <? Z.succ (Z.of_nat n) - 1 + ns) with false by lia. replace (x <? Z.of_nat n - 1 + ns) with false by lia. rewrite andb_false_r. reflexivity.
Qed.
Lemma f_of_D_single x z : fin x -> val x = IZR z -> Z.abs z <= 2 ^ 64 -> ffin (f_of_D x) /\ B2R (f_of_D x) = single (IZR z).
Proof.
  intros Fx Vx H. assert (S0 : single 0 = 0%R) by (unfold single; apply round_0; apply valid_rnd_N).
  destruct x as [s|s| |s m e B]; try discriminate.
  - split; [reflexivity|]. unfold val in Vx. cbn [B2R] in Vx. rewrite <- Vx, S0. reflexivity.
  - unfold f_of_D. pose proof (binary_normalize_correct prec32 emax32 Hprec32 Hmax32 mode_NE (if s then Zneg m else Zpos m) e s) as C. cbv zeta in C.
    assert (E : F2R (Float radix2 (if s then Z.neg m else Z.pos m) e) = IZR z) by (rewrite <- Vx; destruct s; reflexivity). rewrite E in C.
    pose proof (of_Z_single z H) as (_ & BS). 
    assert (LT : (Rabs (single (IZR z)) < bpow radix2 128)%R) by (rewrite <- BS; apply abs_B2R_lt_emax).
    rewrite Rlt_bool_true in C by exact LT. destruct C as (C1 & C2 & _). split; [exact C2|exact C1].
Qed.
Lemma line_single off t : 0 <= t <= 32767 -> 0 <= off <= 2 ^ 40 -> sample_is (enc_f (line_value off t)) (2 * t + off).
Proof.
  intros T O. assert (P40 : 2 ^ 40 = 1099511627776) by reflexivity. assert (P53 : 2 ^ 53 = 9007199254740992) by reflexivity. assert (P64 : 2 ^ 64 = 18446744073709551616) by reflexivity.
  destruct (d_of_Z_exact 2 ltac:(lia)) as (V2 & F2). destruct (d_of_Z_exact t ltac:(lia)) as (Vt & Ft). destruct (d_of_Z_exact off ltac:(lia)) as (Vo & Fo).
  destruct (dmul_spec (d_of_Z 2) (d_of_Z t)) as (V & F).
  { rewrite V2, Vt, <- mult_IZR, rn_int by lia. apply ScalarProofs.int_small. lia. }
  rewrite V2, Vt, <- mult_IZR, rn_int in V by lia. rewrite F2, Ft in F.
  destruct (dadd_whole (dmul (d_of_Z 2) (d_of_Z t)) (d_of_Z off) (2 * t) off (conj F V) (conj Fo Vo) ltac:(lia)) as (FS & VS).
  unfold sample_is. rewrite dec_enc. apply f_of_D_single; [exact FS|exact VS|lia].
Qed.
