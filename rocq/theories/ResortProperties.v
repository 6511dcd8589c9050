(** C116: sorting a file that is sorted, and sorting twice. *)
From Coq Require Import Reals Lra Permutation Sorted.
From Flocq Require Import Core IEEE754.BinarySingleNaN.
From Verif Require Import Base DecompModel DecompSpec DecompProofs NumEncModel NumEncSpec NumEncProofs CharEncModel CharEncProofs LayoutModel LayoutProofs DataIOModel DataIOProofs
  RuleModel RuleProofs DoubleModel ParamModel ParamProofs HeaderProofs ScalarProofs FileSpec FileModel FileProofs WriteSpec WriteProofs RuleProperties ParamProperties ReadProofs OpenProofs FileProperties TraceProperties.
From Verif Require Import SortSpec SortModel SortProofs CompProofs SortProperties FlowModel FlowProofs FlowProperties CopySpec CopyProofs CopyProperties ExampleModel ExampleProofs SetFileModel SetFileSpec SetFileProofs SetOutProofs SetSortModel SetSortSpec SetSortProofs SetSortProperties VerifyModel VerifyProofs SixteenthProofs VerifyProperties ResortProofs.
Import ListNotations.
Open Scope Z_scope.

(** C116: a file whose traces are in the order asked for, each before the next, is written
    with every trace at its own place, by any number of processes. *)
Theorem C116_sorted_unchanged : forall maxSize ns inc key rd f p type srt outmsg sizes0 (sizes : nat -> nat -> nat -> list Z) fuel fuel2 fds,
  3600 <= maxSize -> 2 * (240 + 4 * ns) <= maxSize -> 0 <= ns <= 32767 -> (0 < p)%nat -> 4 * Z.of_nat p <= r_nt rd ->
  set_input maxSize ns inc (rd, f) -> std_sort srt -> 35 <= type <= 43 ->
  (forall a, 0 <= a -> a + 1 < r_nt rd -> lex (keys type (header_geo (disk_header f ns a) a)) (keys type (header_geo (disk_header f ns (a + 1)) (a + 1)))) ->
  sort_set fuel fuel2 maxSize sizes0 srt type [(rd, f)] (group_files key [(key, (rd, f))] p) p = Some fds ->
  forall h f0 maxSize' sizes', file_bytes f0 -> 3600 <= maxSize' -> (forall x, In x h -> (fst x < p)%nat) ->
  (forall r, (r < p)%nat -> set_calls maxSize (sizes r) sort_set_rule srt outmsg [(rd, f)] fds p r = Some (rank_ops h r)) ->
  exists f' rd', write_file maxSize p h f0 = Some f' /\ fsize f' = 3600 + r_nt rd * (240 + 4 * ns) /\ open_file maxSize' sizes' f' = Some rd' /\
  r_ns rd' = ns /\ r_nt rd' = r_nt rd /\ r_inc rd' = inc /\ forall b, 0 <= b < r_nt rd -> sorted_copy f b f' b ns.
Proof.
  intros maxSize ns inc key rd f p type srt outmsg sizes0 sizes fuel fuel2 fds M1 M2 NS P FOUR SI SRT T ADJ S h f0 maxSize' sizes' FB0 M' RK RUN.
  destruct (C104_sorted_file maxSize ns inc key rd f p type srt outmsg sizes0 sizes M1 M2 NS P FOUR SI SRT T) as (_ & Q). destruct (Q fuel fuel2 fds S) as (_ & perm & PM & SS & _ & W). clear Q S.
  destruct (W h f0 maxSize' sizes' FB0 M' RK RUN) as (f' & rd' & W1 & W2 & W3 & W4 & W5 & W6 & W7). exists f', rd'. repeat (split; [assumption|]). clear W W1 W3 RUN SI.
  assert (E : perm = zr (r_nt rd)) by (apply (in_order_same (fun a => keys type (header_geo (disk_header f ns a) a)) _ _ ADJ PM SS)).
  intros b B. specialize (W7 b B). rewrite E in W7. assert (N : nth (Z.to_nat b) (zr (r_nt rd)) 0 = b).
  { pose proof (nth_map_zrange (fun x => x) (Z.to_nat (r_nt rd)) b 0 ltac:(clear - B; lia)) as X. rewrite map_id in X. exact X. }
  rewrite N in W7. exact W7.
Qed.
Print Assumptions C116_sorted_unchanged.

(** C116: a file that the sort program has written, sorted again by any number of processes,
    keeps every trace at its place, when the order is one of lines and stored offsets (41,
    43), or all coordinates are multiples of a sixteenth. [f2] is the output as found on disk: outside
    the size of a file there is nothing. Missing: coordinates with other fractions. *)
Theorem C116_twice_partial : forall maxSize ns inc key rd f p type srt outmsg sizes0 (sizes : nat -> nat -> nat -> list Z) fuel fuel2 fds,
  3600 <= maxSize -> 2 * (240 + 4 * ns) <= maxSize -> 0 <= ns <= 32767 -> (0 < p)%nat -> 4 * Z.of_nat p <= r_nt rd ->
  set_input maxSize ns inc (rd, f) -> std_sort srt -> 35 <= type <= 43 ->
  type = 41 \/ type = 43 \/ fine_coordinates f ns (r_nt rd) ->
  sort_set fuel fuel2 maxSize sizes0 srt type [(rd, f)] (group_files key [(key, (rd, f))] p) p = Some fds ->
  forall h f0, file_bytes f0 -> (forall x, In x h -> (fst x < p)%nat) ->
  (forall r, (r < p)%nat -> set_calls maxSize (sizes r) sort_set_rule srt outmsg [(rd, f)] fds p r = Some (rank_ops h r)) ->
  exists f', write_file maxSize p h f0 = Some f' /\
  forall f2, same_file f' f2 -> file_bytes f2 ->
  exists rd2, open_file maxSize [] f2 = Some rd2 /\ set_input maxSize ns inc (rd2, f2) /\ r_nt rd2 = r_nt rd /\
  forall key2 p2 outmsg2 sizes2 (sizes3 : nat -> nat -> nat -> list Z) fuel3 fuel4 fds2 h2 f3,
  (0 < p2)%nat -> 4 * Z.of_nat p2 <= r_nt rd -> file_bytes f3 -> (forall x, In x h2 -> (fst x < p2)%nat) ->
  sort_set fuel3 fuel4 maxSize sizes2 srt type [(rd2, f2)] (group_files key2 [(key2, (rd2, f2))] p2) p2 = Some fds2 ->
  (forall r, (r < p2)%nat -> set_calls maxSize (sizes3 r) sort_set_rule srt outmsg2 [(rd2, f2)] fds2 p2 r = Some (rank_ops h2 r)) ->
  exists f4, write_file maxSize p2 h2 f3 = Some f4 /\ fsize f4 = fsize f' /\ forall b, 0 <= b < r_nt rd -> sorted_copy f2 b f4 b ns.
Proof.
  intros maxSize ns inc key rd f p type srt outmsg sizes0 sizes fuel fuel2 fds M1 M2 NS P FOUR SI SRT T CASE S h f0 FB0 RK RUN.
  destruct (sorted_output maxSize ns inc key rd f p type srt outmsg sizes0 sizes fuel fuel2 fds M1 M2 NS P FOUR SI SRT T CASE S h f0 maxSize [] FB0 M1 M2 RK RUN) as (f' & rd' & W & O & Q1 & Q2 & Q3 & SZ & WF & ADJ).
  exists f'. split; [exact W|]. intros f2 SF FB2.
  assert (I : exists i, inc = dmul incFactor (d_of_Z i) /\ 1 <= i <= 32767).
  { destruct SI as [(sz0 & OP) FB SZ0 NSE INC FM IV]. cbn [fst snd] in *. destruct (open_inv _ _ _ _ M1 FB SZ0 OP) as (_ & A2 & _). exists (int16_at (fbyte f) 3217). split; [congruence|].
    split; [exact IV|]. rewrite int16_rd by apply FB. pose proof (rd16_range (fbyte f) (3217 - 1)) as Q. unfold in_s16 in Q. clear - Q. lia. }
  destruct I as (i & II & IR).
  pose proof (output_input maxSize p h f0 f' (r_nt rd) ns inc maxSize [] rd' f2 i M1 M1 WF O Q3 II IR SF FB2) as SI2.
  exists rd'. split; [|split; [exact SI2|split; [exact Q2|]]].
  - destruct (life _ _ _ _ _ _ _ WF) as (fm & hd & k & _ & FA & NS1 & NS0 & _ & _ & K & SZL & B1 & _ & X1 & X2 & X3 & X4). destruct SF as (S1 & S2).
    assert (B2 : forall q, 0 <= q < 3600 -> fbyte f2 q = hd q).
    { intros q Q. rewrite S2; [apply B1; exact Q|]. rewrite SZ. assert (0 <= r_nt rd * (240 + 4 * ns)) by (apply Z.mul_nonneg_nonneg; clear - FOUR NS P; lia). clear - Q H. lia. }
    rewrite (open_spec maxSize [] f2 hd _ ns M1 FA NS1 ltac:(rewrite S1; exact SZL) B2 X1). rewrite <- O. symmetry. apply (open_spec maxSize [] f' hd _ ns M1 FA NS1 SZL B1 X1).
  - intros key2 p2 outmsg2 sizes2 sizes3 fuel3 fuel4 fds2 h2 f3 P2 FOUR2 FB3 RK2 S2 RUN2.
    assert (ADJ2 : forall a, 0 <= a -> a + 1 < r_nt rd' -> lex (keys type (header_geo (disk_header f2 ns a) a)) (keys type (header_geo (disk_header f2 ns (a + 1)) (a + 1)))).
    { rewrite Q2. intros a A1 A2. rewrite (same_geo f' f2 ns (r_nt rd) a SF ltac:(clear - NS; lia) SZ ltac:(clear - A1 A2; lia)).
      rewrite (same_geo f' f2 ns (r_nt rd) (a + 1) SF ltac:(clear - NS; lia) SZ ltac:(clear - A1 A2; lia)). apply ADJ; assumption. }
    destruct (C116_sorted_unchanged maxSize ns inc key2 rd' f2 p2 type srt outmsg2 sizes2 sizes3 fuel3 fuel4 fds2 M1 M2 NS P2 ltac:(rewrite Q2; exact FOUR2) SI2 SRT T ADJ2 S2 h2 f3 maxSize [] FB3 M1 RK2 RUN2)
      as (f4 & rd4 & W4 & SZ4 & _ & _ & _ & _ & CP). exists f4. split; [exact W4|]. split; [rewrite SZ4, Q2, SZ; reflexivity|]. rewrite Q2 in CP. exact CP.
Qed.
Print Assumptions C116_twice_partial.

(** C116 refuted: the file of C115_fraction_refuted, sorted twice on one process; the second
    run exchanges the first two traces. *)
Definition sort_once (f : file) : option file :=
  obind (open_file 4000 [] f) (fun rd =>
  obind (sort_set 50 50 4000 (fun _ _ => []) isort 35 [(rd, f)] (group_files (0, 0) [((0, 0), (rd, f))] 1) 1) (fun fds =>
  obind (set_calls 4000 (fun _ _ => []) sort_set_rule isort [] [(rd, f)] fds 1 0) (fun ops =>
  write_file 4000 1 (map (pair 0%nat) ops) (mkFile 0 (fun _ => 0))))).
Theorem C116_fraction_refuted : exists f1 f2, sort_once fraction_file = Some f1 /\ sort_once f1 = Some f2 /\
  coordinate (disk_header f1 1 0) 77 71 = 1%R /\ coordinate (disk_header f1 1 1) 77 71 = (5 / 4)%R /\
  coordinate (disk_header f2 1 0) 77 71 = (5 / 4)%R /\ coordinate (disk_header f2 1 1) 77 71 = 1%R.
Proof.
  pose (look := fun g => map (fun a => (int32_at (disk_header g 1 a) 77, int16_at (disk_header g 1 a) 71)) [0; 1]).
  assert (E : obind (sort_once fraction_file) (fun f1 => obind (sort_once f1) (fun f2 => Some (look f1, look f2))) = Some ([(10, -10); (125, -100)], [(125, -100); (10, -10)])) by (vm_compute; reflexivity).
  destruct (sort_once fraction_file) as [f1|]; [|discriminate]. cbn [obind] in E. destruct (sort_once f1) as [f2|] eqn:E2; [|discriminate]. cbn [obind] in E. exists f1, f2. split; [reflexivity|]. split; [exact E2|].
  assert (L1 : look f1 = [(10, -10); (125, -100)]) by congruence. assert (L2 : look f2 = [(125, -100); (10, -10)]) by congruence. unfold look in L1, L2. cbn [map] in L1, L2. clear E E2.
  unfold coordinate, factor. 
  assert (A1 : int32_at (disk_header f1 1 0) 77 = 10 /\ int16_at (disk_header f1 1 0) 71 = -10 /\ int32_at (disk_header f1 1 1) 77 = 125 /\ int16_at (disk_header f1 1 1) 71 = -100) by (repeat split; congruence).
  assert (A2 : int32_at (disk_header f2 1 0) 77 = 125 /\ int16_at (disk_header f2 1 0) 71 = -100 /\ int32_at (disk_header f2 1 1) 77 = 10 /\ int16_at (disk_header f2 1 1) 71 = -10) by (repeat split; congruence).
  destruct A1 as (-> & -> & -> & ->). destruct A2 as (-> & -> & -> & ->). cbn [Z.eqb Z.ltb Z.compare Z.opp]. repeat split; lra.
Qed.
Print Assumptions C116_fraction_refuted.

(** The hypotheses of C116_twice_partial are those of C115, met by its example. A file in
    order: eight traces on two lines. *)
Definition ordered_byte (q : Z) : Z :=
  if q <? 3600 then (if q =? 3217 then 250 else if q =? 3221 then 1 else if q =? 3225 then 5 else 0)
  else let t := (q - 3600) / 244 in let x := (q - 3600) mod 244 in if x =? 191 then t / 4 mod 256 else if x =? 195 then t mod 4 else 0.
Definition ordered_file : file := mkFile 5552 ordered_byte.
Example C116_nonvacuous : exists rd, set_input 4000 1 (r_inc rd) (rd, ordered_file) /\ 4 * Z.of_nat 2 <= r_nt rd /\
  (forall a, 0 <= a -> a + 1 < r_nt rd -> lex (keys 41 (header_geo (disk_header ordered_file 1 a) a)) (keys 41 (header_geo (disk_header ordered_file 1 (a + 1)) (a + 1)))) /\
  fine_coordinates fine_file 1 8.
Proof.
  assert (FB : file_bytes ordered_file).
  { intros q. unfold ordered_file. cbn [fbyte]. unfold ordered_byte. cbv zeta. unfold is_byte.
    repeat match goal with |- context [if ?c then _ else _] => destruct c end; try lia; pose proof (Z.mod_pos_bound ((q - 3600) / 244) 4 ltac:(lia)); pose proof (Z.mod_pos_bound ((q - 3600) / 244 / 4) 256 ltac:(lia)); lia. }
  assert (SZ : 3600 <= fsize ordered_file < two64) by (cbn [ordered_file fsize]; unfold two64; lia).
  destruct (open_total 4000 [] ordered_file ltac:(lia) FB ltac:(lia)) as (rd & E).
  { assert (Q : int16_at (fbyte ordered_file) 3221 = 1) by reflexivity. lia. }
  destruct (open_inv 4000 [] ordered_file rd ltac:(lia) FB SZ E) as (A1 & A2 & A3 & A4 & A5 & _).
  assert (N : r_ns rd = 1) by (rewrite A1; reflexivity). assert (NT : r_nt rd = 8) by (rewrite A5, N; reflexivity).
  exists rd. split; [constructor; cbn [fst snd]; [exists []; exact E|exact FB|exact SZ|exact N|reflexivity|vm_compute; discriminate|vm_compute; discriminate]|]. rewrite NT. clear - FB. split; [lia|]. split.
  - assert (C : forall a, 0 <= a < 7 -> getComp 41 (header_geo (disk_header ordered_file 1 a) a) (header_geo (disk_header ordered_file 1 (a + 1)) (a + 1)) = true).
    { intros a A. assert (C : a = 0 \/ a = 1 \/ a = 2 \/ a = 3 \/ a = 4 \/ a = 5 \/ a = 6) by lia. repeat (destruct C as [C|C]; [subst a; vm_compute; reflexivity|]). subst a. vm_compute. reflexivity. }
    intros a A B. apply (C50_orders_compare_keys 41); [lia|apply geo_finite; exact FB|apply geo_finite; exact FB|apply C; lia].
  - destruct C115_nonvacuous as (rd & _ & F & W & L & _). assert (r_nt rd = 8) as <- by lia. exact W.
Qed.
