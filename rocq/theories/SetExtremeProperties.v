(** C119: the extremes of a set of files. *)
From Coq Require Import Reals Lra Permutation.
From Flocq Require Import Core IEEE754.BinarySingleNaN.
From Verif Require Import Base DecompModel DataIOModel RuleModel DoubleModel ParamModel ParamProofs FileSpec FileModel ScalarProofs SortModel MinMaxModel MinMaxProofs FlowModel FlowProofs CopySpec ModProofs SetFileModel ExtremeModel ExtremeSpec MultiSortSpec SetExtremeModel SetExtremeSpec SetExtremeProofs SetOrderProofs OpenProofs FileProofs.
From Verif Require Import ExampleProofs ExampleProofs.
Import ListNotations.
Open Scope Z_scope.

(** A set whose files open and have traces. *)
Definition set_ready (maxSize : Z) (fl : list (gkey * (reader * file))) : Prop :=
  fl <> [] /\ (forall x, In x fl -> exists s, readable maxSize s (snd (snd x)) (fst (snd x))) /\ forall k, gsum k (map (fun x => (fst x, r_nt (fst (snd x)))) fl) < two64.
Lemma ready_all maxSize fl : set_ready maxSize fl -> forall k, (k < length (map snd fl))%nat -> exists s, readable maxSize s (snd (nth k (map snd fl) no_input)) (fst (nth k (map snd fl) no_input)).
Proof. intros (_ & R & _) k K. pose proof (nth_In (map snd fl) no_input K) as I. apply in_map_iff in I. destruct I as (x & E & I). destruct (R x I) as (s & Q). exists s. rewrite <- E. exact Q. Qed.

(** C119: the program ends and reports twelve pairs; pair q names a trace with the smallest
    (even q) of a coordinate in the whole set, and its value. *)
Theorem C119_smallest :
  forall maxSize fl p sizes, (0 < p)%nat -> set_ready maxSize fl -> exists es, example_minmax maxSize sizes fl p = Some es /\ length es = 12%nat /\
  forall q, 0 <= q < 12 -> Z.even q = true -> set_extreme (map snd fl) true (extreme_field q) (nth (Z.to_nat q) es (dbl_min, 0)).
Proof.
  intros maxSize fl p sizes P S. pose proof (ready_all _ _ S) as R. destruct S as (NE & _ & B). destruct (three_calls maxSize fl p P R B NE sizes) as (es & E & L & H).
  exists es. split; [exact E|]. split; [exact L|]. intros q Q EV. specialize (H q Q). rewrite EV in H. exact H.
Qed.
Print Assumptions C119_smallest.

(** C119 (the part that holds): pair q (odd) names a trace with the largest of a coordinate
    in the whole set, if any trace of the set has a positive one.  Missing: sets without a
    positive value, see the refutation. *)
Theorem C119_largest_partial :
  forall maxSize fl p sizes, (0 < p)%nat -> set_ready maxSize fl -> exists es, example_minmax maxSize sizes fl p = Some es /\
  forall q, 0 <= q < 12 -> Z.even q = false -> (exists k a, (k < length fl)%nat /\ 0 <= a < traces_in (map snd fl) k /\ (0 < place_of (map snd fl) k a (extreme_field q))%R) ->
  set_extreme (map snd fl) false (extreme_field q) (nth (Z.to_nat q) es (dbl_min, 0)).
Proof.
  intros maxSize fl p sizes P S. pose proof (ready_all _ _ S) as R. destruct S as (NE & _ & B). destruct (three_calls maxSize fl p P R B NE sizes) as (es & E & L & H).
  exists es. split; [exact E|]. intros q Q EV (k & a & K & A & PS). specialize (H q Q). rewrite EV in H. apply H. exists k, a. split; [rewrite map_length; exact K|]. auto.
Qed.
Print Assumptions C119_largest_partial.

(** C119, the claim that fails: for every set without a positive value of a coordinate the
    largest is reported as the smallest positive normal double, at trace 2^64 - 1. *)
Theorem C119_no_positive_refuted :
  forall maxSize fl p sizes, (0 < p)%nat -> set_ready maxSize fl -> exists es, example_minmax maxSize sizes fl p = Some es /\
  forall q, 0 <= q < 12 -> Z.even q = false -> (forall k a, (k < length fl)%nat -> 0 <= a < traces_in (map snd fl) k -> (place_of (map snd fl) k a (extreme_field q) <= 0)%R) ->
  let e := nth (Z.to_nat q) es (dbl_min, 0) in e = (dbl_min, two64 - 1) /\ (0 < val (fst e))%R /\ ~ set_extreme (map snd fl) false (extreme_field q) e.
Proof.
  intros maxSize fl p sizes P S. pose proof (ready_all _ _ S) as R. destruct S as (NE & _ & B). destruct (three_calls maxSize fl p P R B NE sizes) as (es & E & L & H).
  exists es. split; [exact E|]. intros q Q EV NP e. specialize (H q Q). rewrite EV in H. cbv beta iota delta [good_result] in H. destruct H as (_ & H).
  assert (EE : e = (dbl_min, two64 - 1)) by (apply H; intros k a K; rewrite map_length in K; apply NP; exact K). split; [exact EE|]. rewrite EE. cbn [fst snd].
  destruct dbl_min_val as (_ & V). split; [rewrite V; apply bpow_gt_0|]. intros (k & K & A & (_ & C) & _). cbn [fst snd] in *. pose proof (NP k _ ltac:(rewrite map_length in K; exact K) A) as Z0. set (c := place_of _ _ _ _) in *. clearbody c. rewrite V in C.
  pose proof (bpow_gt_0 radix2 (-1022)) as G. apply Rabs_le_inv in C. rewrite (Rabs_left1 c) in C by exact Z0. assert (E51 : (bpow radix2 (-51) = / 2251799813685248)%R) by (cbn; lra). rewrite E51 in C. lra.
Qed.
Print Assumptions C119_no_positive_refuted.

(** C119: the report does not depend on the order in which the files were given: the values
    and the numbers are the same.  So it does not tell which file a number belongs to. *)
Theorem C119_any_order :
  forall maxSize fl fl' p sizes sizes', (0 < p)%nat -> set_ready maxSize fl -> Permutation fl fl' -> set_ready maxSize fl' -> exists a b,
  example_minmax maxSize sizes fl p = Some a /\ example_minmax maxSize sizes' fl' p = Some b /\
  Forall2 (fun e e' => fin (fst e) /\ fin (fst e') /\ val (fst e) = val (fst e') /\ snd e = snd e') a b.
Proof.
  intros maxSize fl fl' p sizes sizes' P S PM S'. assert (R : forall l, set_ready maxSize l -> ready maxSize l) by (intros l Q; split; [apply Q|split; [apply ready_all, Q|apply Q]]).
  apply (report_order maxSize p P fl fl' sizes sizes' (R _ S) (R _ S') PM).
Qed.
Print Assumptions C119_any_order.

(** Two files with source coordinates c, c + 2, c + 4, ... along x and none along y. *)
Definition place_byte (c q : Z) : Z :=
  if q <? 3600 then (if q =? 3217 then 250 else if q =? 3221 then 1 else if q =? 3225 then 5 else 0)
  else let t := (q - 3600) / 244 in let x := (q - 3600) mod 244 in if x =? 71 then 1 else if x =? 75 then (c + 2 * t) mod 256 else 0.
Definition place_file (c n : Z) : file := mkFile (3600 + n * 244) (place_byte c).
Definition report_of (p : nat) (l : list (Z * Z)) : option (list (option Z * Z)) :=
  obind (omap (fun x => obind (open_file 4000 [] (place_file (fst x) (snd x))) (fun rd => Some ((1, 250), (rd, place_file (fst x) (snd x))))) l) (fun fl =>
  obind (example_minmax 4000 (fun _ _ _ => []) fl p) (fun es => Some (map (fun e => (dlround (fst e), snd e)) (firstn 4 es)))).
(** The smallest is 3, at trace 0 of one file, the largest 19, at trace 5 of the other; for the
    other coordinate the largest is not 0 but a tiny positive number, at trace 2^64 - 1. *)
Example C119_values : report_of 3 [(3, 4); (9, 6)] = Some [(Some 3, 0); (Some 19, 5); (Some 0, 0); (Some 0, two64 - 1)] /\ report_of 3 [(9, 6); (3, 4)] = report_of 3 [(3, 4); (9, 6)].
Proof. split; vm_compute; reflexivity. Qed.
Lemma y_zero c n a : 0 <= a -> int32_at (disk_header (place_file c n) 1 a) 77 = 0.
Proof.
  intros A. assert (Z0 : forall x, 76 <= x <= 79 -> disk_header (place_file c n) 1 a x = 0).
  { intros x X. unfold disk_header, place_file, place_byte, trace_at. cbn [fbyte]. cbv zeta. replace (3600 + a * (240 + 4 * 1) + x <? 3600) with false by lia.
    replace (3600 + a * (240 + 4 * 1) + x - 3600) with (x + a * 244) by ring. rewrite Z.mod_add, Z.mod_small by lia. replace (x =? 71) with false by lia. replace (x =? 75) with false by lia. reflexivity. }
  unfold int32_at. rewrite !Z0 by lia. reflexivity.
Qed.
(** Refuted: the numbers do not name traces of the set.  The reports on two sets agree
    although the smallest coordinate is in the first file of one and in the second of the
    other. *)
Theorem C119_which_file_refuted : exists rd1 rd2, let A := ((1, 250), (rd1, place_file 3 4)) in let B := ((1, 250), (rd2, place_file 9 6)) in
  set_ready 4000 [A; B] /\ set_ready 4000 [B; A] /\ Permutation [A; B] [B; A] /\
  (exists k a, (k < 2)%nat /\ 0 <= a < traces_in (map snd [A; B]) k /\ (0 < place_of (map snd [A; B]) k a (extreme_field 1))%R) /\
  (forall k a, (k < 2)%nat -> 0 <= a < traces_in (map snd [A; B]) k -> (place_of (map snd [A; B]) k a (extreme_field 3) <= 0)%R) /\
  forall p sizes sizes', (0 < p)%nat -> exists x y, example_minmax 4000 sizes [A; B] p = Some x /\ example_minmax 4000 sizes' [B; A] p = Some y /\
  map snd x = map snd y /\ map (fun e => val (fst e)) x = map (fun e => val (fst e)) y.
Proof.
  assert (OP : forall c n, 0 < n < 100 -> exists rd, readable 4000 [] (place_file c n) rd /\ r_nt rd = n /\ r_ns rd = 1).
  { intros c n N. assert (FB : file_bytes (place_file c n)).
    { intros q. unfold place_file. cbn [fbyte]. unfold place_byte. cbv zeta. unfold is_byte.
      repeat match goal with |- context [if ?c then _ else _] => destruct c end; try lia; pose proof (Z.mod_pos_bound (c + 2 * ((q - 3600) / 244)) 256 ltac:(lia)); lia. }
    assert (SZ : 3600 <= fsize (place_file c n) < two64) by (cbn [place_file fsize]; unfold two64; lia).
    destruct (open_total 4000 [] (place_file c n) ltac:(lia) FB ltac:(lia)) as (rd & E).
    { assert (Q : int16_at (fbyte (place_file c n)) 3221 = 1) by reflexivity. lia. }
    exists rd. destruct (open_inv 4000 [] (place_file c n) rd ltac:(lia) FB SZ E) as (A1 & A2 & A3 & A4 & A5 & _).
    assert (N1 : r_ns rd = 1) by (rewrite A1; reflexivity). assert (NT : r_nt rd = n). { rewrite A5, N1. clear -N. cbn [place_file fsize]. change (240 + 4 * 1) with 244. replace (3600 + n * 244 - 3600) with (n * 244) by ring. apply Z.div_mul. discriminate. }
    clear A2. split; [|split; [exact NT|exact N1]]. constructor; [exact E|exact FB|exact SZ|rewrite N1; clear; split; vm_compute; congruence|rewrite N1; clear; vm_compute; congruence|rewrite NT; clear -N; lia|].
    assert (Q : int16_at (fbyte (place_file c n)) 3217 = 250) by reflexivity. rewrite Q. clear. lia. }
  destruct (OP 3 4 ltac:(lia)) as (rd1 & S1 & T1 & N1). destruct (OP 9 6 ltac:(lia)) as (rd2 & S2 & T2 & N2). clear OP. exists rd1, rd2. cbv zeta.
  assert (RA : set_ready 4000 [((1, 250), (rd1, place_file 3 4)); ((1, 250), (rd2, place_file 9 6))]).
  { split; [discriminate|]. split; [intros x [<-|[<-|[]]]; exists []; assumption|]. intros k. unfold gsum. cbn [filter map fst snd]. destruct (gkeqb (1, 250) k); rewrite ?T1, ?T2; vm_compute; reflexivity. }
  assert (RB : set_ready 4000 [((1, 250), (rd2, place_file 9 6)); ((1, 250), (rd1, place_file 3 4))]).
  { split; [discriminate|]. split; [intros x [<-|[<-|[]]]; exists []; assumption|]. intros k. unfold gsum. cbn [filter map fst snd]. destruct (gkeqb (1, 250) k); rewrite ?T1, ?T2; vm_compute; reflexivity. }
  split; [exact RA|]. split; [exact RB|]. split; [apply perm_swap|]. split; [|split].
  - exists 0%nat, 0. split; [clear; lia|]. unfold traces_in, place_of. cbn [map snd nth fst]. rewrite T1, N1. split; [clear; lia|]. unfold coordinate. change (int16_at (disk_header (file_of [(rd1, place_file 3 4); (rd2, place_file 9 6)] 0) 1 0) 71) with 1. change (int32_at (disk_header (file_of [(rd1, place_file 3 4); (rd2, place_file 9 6)] 0) 1 0) (extreme_field 1)) with 3. clear. cbn. lra.
  - clear RA RB S1 S2. intros k a K A. assert (E : int32_at (disk_header (file_of [(rd1, place_file 3 4); (rd2, place_file 9 6)] k) 1 a) 77 = 0) by (destruct k as [|[|k]]; [apply y_zero, A|apply y_zero, A|clear -K; lia]).
    assert (NS : r_ns (fst (nth k [(rd1, place_file 3 4); (rd2, place_file 9 6)] no_input)) = 1) by (destruct k as [|[|k]]; [exact N1|exact N2|clear -K; lia]).
    unfold place_of, coordinate. change (extreme_field 3) with 77. cbn [map snd]. rewrite NS, E. clear. lra.
  - intros p sizes sizes' P. destruct (C119_any_order 4000 _ _ p sizes sizes' P RA (perm_swap _ _ _) RB) as (x & y & E1 & E2 & F). exists x, y. split; [exact E1|]. split; [exact E2|]. clear -F. induction F as [|e e' x y (_ & _ & V & N) F (IH1 & IH2)]; [split; reflexivity|]. cbn [map]. rewrite V, N, IH1, IH2. split; reflexivity.
Qed.
Print Assumptions C119_which_file_refuted.
