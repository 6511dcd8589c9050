(** C57, C58, C59: minimum and maximum. *)
From Coq Require Import Reals Lra Sorted Permutation.
From Flocq Require Import Core IEEE754.BinarySingleNaN.
From Verif Require Import Base DoubleModel ScalarProofs SortSpec SortModel SortProofs CompProofs MinMaxModel MinMaxProofs.
Open Scope Z_scope.

(** ---- C57 ---- *)
(** [e] is the smallest (largest) first value of the traces of the p ranks, and its
    number is that of a trace with that value; rank r numbers its traces from [off r]. *)
Definition is_min (p : nat) (off : nat -> Z) (dat : nat -> list trc) (e : elem) : Prop :=
  (exists r i t, (r < p)%nat /\ nth_error (dat r) i = Some t /\ fst e = fst t /\ snd e = u64 (off r + Z.of_nat i)) /\
  forall r t, (r < p)%nat -> In t (dat r) -> (ext (fst e) <= ext (fst t))%R.
Definition is_max (p : nat) (off : nat -> Z) (dat : nat -> list trc) (e : elem) : Prop :=
  (exists r i t, (r < p)%nat /\ nth_error (dat r) i = Some t /\ fst e = fst t /\ snd e = u64 (off r + Z.of_nat i)) /\
  forall r t, (r < p)%nat -> In t (dat r) -> (ext (fst t) <= ext (fst e))%R.
Definition no_nan (p : nat) (dat : nat -> list trc) : Prop := forall r t, (r < p)%nat -> In t (dat r) -> num (fst t) /\ num (snd t).
Definition some_trace (p : nat) (dat : nat -> list trc) : Prop := exists r, (r < p)%nat /\ dat r <> [].
Lemma coord_min_max junk p off dat : no_nan p dat -> some_trace p dat -> is_min p off dat (fst (getCoordMinMax junk p off dat)) /\ is_max p off dat (snd (getCoordMinMax junk p off dat)).
Proof.
  intros N S. destruct (coord_spec junk p off dat N S) as (r1 & i1 & a & r2 & i2 & b & E & R1 & N1 & _ & B1 & R2 & N2 & _ & B2). rewrite E. cbn [fst snd].
  split; (split; [|intros r t R T; apply dltb_le]).
  - exists r1, i1, a. auto.
  - apply (N r1 a R1), (nth_error_In _ _ N1).
  - apply (N r t R T).
  - apply (B1 r t R T).
  - exists r2, i2, b. auto.
  - apply (N r t R T).
  - apply (N r2 b R2), (nth_error_In _ _ N2).
  - apply (B2 r t R T).
Qed.
Lemma swap_in p dat : no_nan p dat -> no_nan p (fun r => map swap (dat r)).
Proof. intros N r t R T. apply in_map_iff in T. destruct T as (s & <- & T). destruct (N r s R T). split; assumption. Qed.
Theorem C57_global_extremes : forall junk p off dat, no_nan p dat -> some_trace p dat ->
  exists x0 x1 y0 y1, getMinMax junk p off dat = [x0; x1; y0; y1] /\ is_min p off dat x0 /\ is_max p off dat x1 /\
    is_min p off (fun r => map swap (dat r)) y0 /\ is_max p off (fun r => map swap (dat r)) y1.
Proof.
  intros junk p off dat N S. unfold getMinMax. eexists _, _, _, _. split; [reflexivity|]. destruct (coord_min_max junk p off dat N S) as (X0 & X1).
  destruct (coord_min_max (swap junk) p off (fun r => map swap (dat r)) (swap_in p dat N)) as (Y0 & Y1); [|auto].
  destruct S as (r & R & D). exists r. split; [exact R|]. destruct (dat r); [congruence|discriminate].
Qed.
Print Assumptions C57_global_extremes.
(** Without any trace: zeros and the number SIZE_MAX. *)
Theorem C57_no_trace : forall junk p off dat, ~ some_trace p dat -> getMinMax junk p off dat = repeat (d_of_Z 0, two64 - 1) 4.
Proof.
  intros junk p off dat S. assert (E : forall r, (r < p)%nat -> dat r = []) by (intros r R; destruct (dat r) eqn:D; [reflexivity|exfalso; apply S; exists r; split; [exact R|congruence]]).
  unfold getMinMax. cbv zeta. rewrite (coord_none junk p off dat E), (coord_none (swap junk) p off); [reflexivity|]. intros r R. rewrite (E r R). reflexivity.
Qed.
Print Assumptions C57_no_trace.
(** Three ranks, the middle one without traces. *)
Definition mm_dat (r : nat) : list trc :=
  match r with 0%nat => [(d_of_Z 5, d_of_Z 1); (d_of_Z (-2), d_of_Z 9)] | 2%nat => [(d_of_Z 7, d_of_Z 0); (d_of_Z 7, d_of_Z (-4)); (d_of_Z 0, d_of_Z 3)] | _ => [] end.
Definition mm_off (r : nat) : Z := match r with 0%nat => 0 | _ => 2 end.
Lemma mm_no_nan : no_nan 3 mm_dat.
Proof. intros r t R T. destruct r as [|[|[|]]]; [| | |lia]; cbn [mm_dat In] in T; decompose [or] T; subst; try contradiction; split; apply of_Z_num. Qed.
Example C57_demo : no_nan 3 mm_dat /\ some_trace 3 mm_dat /\
  map (fun e => (dlround (fst e), snd e)) (getMinMax (d_of_Z 99, d_of_Z 99) 3 mm_off mm_dat) = [(Some (-2), 1); (Some 7, 2); (Some (-4), 3); (Some 9, 1)].
Proof. split; [exact mm_no_nan|]. split; [exists 0%nat; split; [lia|discriminate]|]. vm_compute. reflexivity. Qed.

(** ---- C58 ---- *)
(** When all traces with the extreme value are on one rank, the trace reported is
    the one extreme in the second value among them. *)
Theorem C58_ties_partial : forall junk p off dat, no_nan p dat -> some_trace p dat ->
  let m := getCoordMinMax junk p off dat in
  (exists r i t, (r < p)%nat /\ nth_error (dat r) i = Some t /\ fst (fst m) = fst t /\ snd (fst m) = u64 (off r + Z.of_nat i) /\
    ((forall r' t', (r' < p)%nat -> In t' (dat r') -> ext (fst t') = ext (fst t) -> r' = r) ->
     forall r' t', (r' < p)%nat -> In t' (dat r') -> ext (fst t') = ext (fst t) -> (ext (snd t) <= ext (snd t'))%R)) /\
  (exists r i t, (r < p)%nat /\ nth_error (dat r) i = Some t /\ fst (snd m) = fst t /\ snd (snd m) = u64 (off r + Z.of_nat i) /\
    ((forall r' t', (r' < p)%nat -> In t' (dat r') -> ext (fst t') = ext (fst t) -> r' = r) ->
     forall r' t', (r' < p)%nat -> In t' (dat r') -> ext (fst t') = ext (fst t) -> (ext (snd t') <= ext (snd t))%R)).
Proof.
  intros junk p off dat N S m. destruct (coord_spec junk p off dat N S) as (r1 & i1 & a & r2 & i2 & b & E & R1 & N1 & M1 & _ & R2 & N2 & M2 & _). unfold m. rewrite E. cbn [fst snd].
  assert (G : forall r1 r2 s q, (r1 < p)%nat -> (r2 < p)%nat -> In s (dat r1) -> In q (dat r2) -> less12 s q = false -> ext (fst s) = ext (fst q) -> (ext (snd q) <= ext (snd s))%R).
  { intros ra rb s q RA RB IS IQ L X. destruct (Rle_or_lt (ext (snd q)) (ext (snd s))) as [C|C]; [exact C|]. exfalso.
    assert (less12 s q = true); [|congruence]. apply less12_spec; [apply (N ra s RA IS)|apply (N rb q RB IQ)|]. cbn [lex]. right. split; [exact X|left; exact C]. }
  split.
  - exists r1, i1, a. split; [exact R1|]. split; [exact N1|]. split; [reflexivity|]. split; [reflexivity|]. intros U r t R T X. pose proof (U r t R T X) as ->. apply (G r1 r1 t a); auto. apply (nth_error_In _ _ N1).
  - exists r2, i2, b. split; [exact R2|]. split; [exact N2|]. split; [reflexivity|]. split; [reflexivity|]. intros U r t R T X. pose proof (U r t R T X) as ->. apply (G r2 r2 b t); auto. apply (nth_error_In _ _ N2).
Qed.
Print Assumptions C58_ties_partial.
Example C58_demo : no_nan 3 mm_dat /\ snd (snd (getCoordMinMax (d_of_Z 99, d_of_Z 99) 3 mm_off mm_dat)) = 2 /\
  forall r t, (r < 3)%nat -> In t (mm_dat r) -> deqb (fst t) (d_of_Z 7) = true -> r = 2%nat.
Proof.
  split; [exact mm_no_nan|]. split; [vm_compute; reflexivity|]. intros r t R T E. destruct r as [|[|[|]]]; [| |reflexivity|lia]; cbn [mm_dat In] in T; decompose [or] T; subst; try contradiction; vm_compute in E; discriminate E.
Qed.
(** Between ranks the second value is not looked at: traces (1, 5) on rank 0 and
    (1, 2) on rank 1, the minimum reported is the first trace. *)
Theorem C58_ties_refuted : exists p off dat, no_nan p dat /\ some_trace p dat /\
  exists e t, fst (getCoordMinMax (d_of_Z 0, d_of_Z 0) p off dat) = e /\ nth_error (flat_map dat (seq 0 p)) (Z.to_nat (snd e)) = Some t /\
    exists r t', (r < p)%nat /\ In t' (dat r) /\ ext (fst t') = ext (fst t) /\ (ext (snd t') < ext (snd t))%R.
Proof.
  exists 2%nat, (fun r => Z.of_nat r), (fun r => match r with 0%nat => [(d_of_Z 1, d_of_Z 5)] | _ => [(d_of_Z 1, d_of_Z 2)] end). split; [|split].
  - intros [|r] t R [<-|[]]; split; apply of_Z_num.
  - exists 0%nat. split; [lia|discriminate].
  - eexists _, _. split; [reflexivity|]. split; [instantiate (1 := (d_of_Z 1, d_of_Z 5))|].
    + replace (snd _) with 0; [reflexivity|]. vm_compute. reflexivity.
    + exists 1%nat, (d_of_Z 1, d_of_Z 2). split; [lia|]. split; [left; reflexivity|]. split; [reflexivity|]. cbn [snd]. apply (dltb_spec (d_of_Z 2) (d_of_Z 5)); [apply of_Z_num|apply of_Z_num|]. vm_compute. reflexivity.
Qed.
Print Assumptions C58_ties_refuted.

(** ---- C59 ---- *)
(** The smallest and largest value over the traces of all files. *)
Definition least (p : nat) (files : list (nat -> list trc)) (v : D) : Prop :=
  (exists f r t, In f files /\ (r < p)%nat /\ In t (f r) /\ ext v = ext (fst t)) /\ forall f r t, In f files -> (r < p)%nat -> In t (f r) -> (ext v <= ext (fst t))%R.
Definition greatest (p : nat) (files : list (nat -> list trc)) (v : D) : Prop :=
  (exists f r t, In f files /\ (r < p)%nat /\ In t (f r) /\ ext v = ext (fst t)) /\ forall f r t, In f files -> (r < p)%nat -> In t (f r) -> (ext (fst t) <= ext v)%R.
Definition finite_files (p : nat) (files : list (nat -> list trc)) : Prop := forall f r t, In f files -> (r < p)%nat -> In t (f r) -> fin (fst t) /\ fin (snd t).
Lemma upd_min_le t m : num (fst t) -> num (fst m) -> num (fst (upd_min t m)) /\ ext (fst (upd_min t m)) = Rmin (ext (fst t)) (ext (fst m)).
Proof.
  intros T M. unfold upd_min. pose proof (deqb_spec _ _ T M) as E. pose proof (dltb_spec _ _ T M) as L. destruct (deqb (fst t) (fst m)).
  - cbn [fst]. split; [exact M|]. pose proof (proj1 E eq_refl) as ->. unfold Rmin. destruct (Rle_dec _ _); reflexivity.
  - unfold Rmin. destruct (dltb (fst t) (fst m)); destruct (Rle_dec (ext (fst t)) (ext (fst m))) as [C|C]; (split; [assumption|]); try reflexivity.
    + exfalso. apply C. left. apply L. reflexivity.
    + exfalso. destruct C as [C|C]; [apply L in C; discriminate|apply E in C; discriminate].
Qed.
Lemma upd_max_le t m : num (fst t) -> num (fst m) -> num (fst (upd_max t m)) /\ ext (fst (upd_max t m)) = Rmax (ext (fst t)) (ext (fst m)).
Proof.
  intros T M. unfold upd_max. pose proof (deqb_spec _ _ T M) as E. pose proof (dltb_spec _ _ M T) as L. destruct (deqb (fst t) (fst m)).
  - cbn [fst]. split; [exact M|]. pose proof (proj1 E eq_refl) as ->. unfold Rmax. destruct (Rle_dec _ _); reflexivity.
  - unfold Rmax. destruct (dltb (fst m) (fst t)); destruct (Rle_dec (ext (fst t)) (ext (fst m))) as [C|C]; (split; [assumption|]); try reflexivity.
    + exfalso. pose proof (proj1 L eq_refl). lra.
    + exfalso. apply Rnot_le_lt in C. apply L in C. discriminate.
Qed.
Lemma file_extremes junk p f : (forall r t, (r < p)%nat -> In t (f r) -> fin (fst t) /\ fin (snd t)) -> some_trace p f ->
  let m := getCoordMinMax junk p (off_of_file f) f in (is_min p (off_of_file f) f (fst m) /\ num (fst (fst m))) /\ is_max p (off_of_file f) f (snd m) /\ num (fst (snd m)).
Proof.
  intros F S m. assert (N : no_nan p f) by (intros r t R T; destruct (F r t R T); split; apply fin_num; assumption).
  destruct (coord_min_max junk p (off_of_file f) f N S) as (A & B). split; (split; [assumption|]).
  - destruct A as ((r & i & t & R & I & E & _) & _). fold m in E. rewrite E. apply (N r t R), (nth_error_In _ _ I).
  - destruct B as ((r & i & t & R & I & E & _) & _). fold m in E. rewrite E. apply (N r t R), (nth_error_In _ _ I).
Qed.
Definition dbl_max_top (x : D) : fin x -> (ext x <= ext dbl_max)%R.
Proof.
  intros F. rewrite ext_fin by exact F. rewrite ext_fin by (vm_compute; reflexivity). pose proof (abs_B2R_le_emax_minus_prec prec64 emax64 Hprec64 x) as H. apply Rabs_le_inv in H. destruct H as (_ & H).
  replace (B2R dbl_max) with (bpow radix2 emax64 - bpow radix2 (emax64 - prec64))%R; [exact H|].
  replace (B2R dbl_max) with (IZR (2 ^ 53 - 1) * bpow radix2 971)%R.
  - rewrite minus_IZR. replace (IZR (2 ^ 53)) with (bpow radix2 53) by reflexivity. unfold emax64, prec64. replace 1024 with (53 + 971) at 1 by lia. rewrite bpow_plus. replace (1024 - 53) with 971 by lia. generalize (bpow radix2 971). intros y. cbn [IZR IPR]. lra.
  - assert (E : B2SF dbl_max = SpecFloat.S754_finite false (2 ^ 53 - 1) 971) by (vm_compute; reflexivity). destruct dbl_max as [| | |s m e Hb]; cbn [B2SF] in E; try discriminate E. injection E as -> -> ->. reflexivity.
Qed.
Theorem C59_files_partial : forall junk p files, files <> [] -> finite_files p files -> (forall f, In f files -> some_trace p f) ->
  least p files (fst (fst (set_minmax junk p files))) /\
  ((exists f r t, In f files /\ (r < p)%nat /\ In t (f r) /\ (ext dbl_min <= ext (fst t))%R) -> greatest p files (fst (snd (set_minmax junk p files)))).
Proof.
  intros junk p files NE FIN ST. unfold set_minmax. set (step := fun m f => _).
  assert (G : forall fs m, (forall f, In f fs -> In f files) -> num (fst (fst m)) -> num (fst (snd m)) ->
    let q := fold_left step fs m in num (fst (fst q)) /\ num (fst (snd q)) /\
    (ext (fst (fst q)) <= ext (fst (fst m)))%R /\ (ext (fst (snd m)) <= ext (fst (snd q)))%R /\
    (ext (fst (fst q)) = ext (fst (fst m)) \/ exists f r t, In f fs /\ (r < p)%nat /\ In t (f r) /\ ext (fst (fst q)) = ext (fst t)) /\
    (ext (fst (snd q)) = ext (fst (snd m)) \/ exists f r t, In f fs /\ (r < p)%nat /\ In t (f r) /\ ext (fst (snd q)) = ext (fst t)) /\
    (forall f r t, In f fs -> (r < p)%nat -> In t (f r) -> (ext (fst (fst q)) <= ext (fst t) <= ext (fst (snd q)))%R)).
  { induction fs as [|f fs IH]; intros m SUB N1 N2.
    - cbn [fold_left]. split; [exact N1|]. split; [exact N2|]. split; [apply Rle_refl|]. split; [apply Rle_refl|]. split; [left; reflexivity|]. split; [left; reflexivity|]. intros f r t [].
    - cbn [fold_left]. assert (IF : In f files) by (apply SUB; left; reflexivity). destruct (file_extremes junk p f (fun r t => FIN f r t IF) (ST f IF)) as ((MI & MN) & MX & MXN). cbv zeta in *.
      set (t := getCoordMinMax junk p (off_of_file f) f) in *. assert (SE : step m f = (upd_min (fst t) (fst m), upd_max (snd t) (snd m))) by reflexivity.
      destruct (upd_min_le (fst t) (fst m) MN N1) as (U1 & U2). destruct (upd_max_le (snd t) (snd m) MXN N2) as (V1 & V2).
      destruct (IH (step m f)) as (Q1 & Q2 & Q3 & Q4 & Q5 & Q6 & Q7); [intros; apply SUB; right; assumption|rewrite SE; exact U1|rewrite SE; exact V1|]. rewrite SE in *. cbn [fst snd] in *.
      set (q := fold_left step fs (upd_min (fst t) (fst m), upd_max (snd t) (snd m))) in *.
      rewrite U2 in Q3, Q5. rewrite V2 in Q4, Q6. clearbody step q. clear SE.
      assert (A1 : (Rmin (ext (fst (fst t))) (ext (fst (fst m))) <= ext (fst (fst t)))%R) by apply Rmin_l. assert (A2 : (Rmin (ext (fst (fst t))) (ext (fst (fst m))) <= ext (fst (fst m)))%R) by apply Rmin_r.
      assert (B1 : (ext (fst (snd t)) <= Rmax (ext (fst (snd t))) (ext (fst (snd m))))%R) by apply Rmax_l. assert (B2 : (ext (fst (snd m)) <= Rmax (ext (fst (snd t))) (ext (fst (snd m))))%R) by apply Rmax_r.
      destruct MI as ((ra & ia & ta & RA & NA & EA & _) & MI). destruct MX as ((rb & ib & tb & RB & NB & EB & _) & MX).
      split; [exact Q1|]. split; [exact Q2|]. split; [lra|]. split; [lra|]. split; [|split].
      + destruct Q5 as [Q5|(f' & r & s & I & R & T & Q5)]; [|right; exists f', r, s; split; [right; exact I|auto]]. unfold Rmin in Q5. destruct (Rle_dec _ _) in Q5; [right|left; exact Q5]. exists f, ra, ta. split; [left; reflexivity|]. split; [exact RA|]. split; [apply (nth_error_In _ _ NA)|]. rewrite Q5, EA. reflexivity.
      + destruct Q6 as [Q6|(f' & r & s & I & R & T & Q6)]; [|right; exists f', r, s; split; [right; exact I|auto]]. unfold Rmax in Q6. destruct (Rle_dec _ _) in Q6; [left; exact Q6|right]. exists f, rb, tb. split; [left; reflexivity|]. split; [exact RB|]. split; [apply (nth_error_In _ _ NB)|]. rewrite Q6, EB. reflexivity.
      + intros f' r s [<-|I] R T; [|apply (Q7 f' r s I R T)]. specialize (MI r s R T). specialize (MX r s R T). lra. }
  destruct (G files ((dbl_max, two64 - 1), (dbl_min, two64 - 1))) as (Q1 & Q2 & Q3 & Q4 & Q5 & Q6 & Q7); [auto|vm_compute; reflexivity|vm_compute; reflexivity|]. clear G. cbv zeta in *. clearbody step. cbn [fst snd] in Q3, Q4, Q5, Q6.
  split; [split; [|intros f r t I R T; apply (Q7 f r t I R T)]|intros (f0 & r0 & t0 & I0 & R0 & T0 & L0); split; [|intros f r t I R T; apply (Q7 f r t I R T)]].
  - destruct Q5 as [Q5|Q5]; [|exact Q5]. destruct files as [|f fs]; [congruence|]. destruct (ST f (or_introl eq_refl)) as (r & R & D). destruct (f r) as [|t l] eqn:FR; [congruence|].
    exists f, r, t. split; [left; reflexivity|]. split; [exact R|]. split; [rewrite FR; left; reflexivity|]. assert (T : In t (f r)) by (rewrite FR; left; reflexivity).
    pose proof (Q7 f r t (or_introl eq_refl) R T) as (H1 & _). destruct (FIN f r t (or_introl eq_refl) R T) as (FT & _). pose proof (dbl_max_top _ FT) as H2. lra.
  - destruct Q6 as [Q6|Q6]; [|exact Q6]. exists f0, r0, t0. split; [exact I0|]. split; [exact R0|]. split; [exact T0|]. pose proof (Q7 f0 r0 t0 I0 R0 T0) as (_ & H). lra.
Qed.
Print Assumptions C59_files_partial.
Definition two_files : list (nat -> list trc) := [mm_dat; fun r => match r with 0%nat => [(d_of_Z (-30), d_of_Z 0)] | _ => [(d_of_Z 4, d_of_Z 1)] end].
Example C59_demo : two_files <> [] /\ (forall f, In f two_files -> some_trace 3 f) /\ dltb dbl_min (d_of_Z 7) = true /\
  (dlround (fst (fst (set_minmax (d_of_Z 0, d_of_Z 0) 3 two_files))), dlround (fst (snd (set_minmax (d_of_Z 0, d_of_Z 0) 3 two_files)))) = (Some (-30), Some 7).
Proof.
  split; [discriminate|]. split; [|split; vm_compute; reflexivity]. intros f [<-|[<-|[]]]; exists 0%nat; (split; [lia|discriminate]).
Qed.
(** Coordinates that are all negative: the maximum reported is 2^-1022, with the
    trace number SIZE_MAX. *)
Theorem C59_negative_refuted : exists p files, finite_files p files /\ (forall f, In f files -> some_trace p f) /\ files <> [] /\
  let m := set_minmax (d_of_Z 0, d_of_Z 0) p files in ~ greatest p files (fst (snd m)) /\ fst (snd m) = dbl_min /\ snd (snd m) = two64 - 1.
Proof.
  exists 1%nat, [fun _ => [(d_of_Z (-5), d_of_Z 0)]]. split; [intros f r t [<-|[]] R [<-|[]]; split; vm_compute; reflexivity|]. split; [intros f [<-|[]]; exists 0%nat; split; [lia|discriminate]|]. split; [discriminate|]. cbv zeta.
  assert (E1 : fst (snd (set_minmax (d_of_Z 0, d_of_Z 0) 1 [fun _ => [(d_of_Z (-5), d_of_Z 0)]])) = dbl_min) by (apply B2SF_inj; vm_compute; reflexivity).
  split; [|split; [exact E1|vm_compute; reflexivity]]. rewrite E1. intros ((f & r & t & [<-|[]] & R & [<-|[]] & E) & _). cbn [fst] in E. apply (deqb_spec dbl_min (d_of_Z (-5))) in E; [|vm_compute; reflexivity|apply of_Z_num]. vm_compute in E. discriminate E.
Qed.
Print Assumptions C59_negative_refuted.
(** A file without traces adds the value 0. *)
Theorem C59_empty_file_refuted : exists p files, finite_files p files /\ (exists f, In f files /\ some_trace p f) /\
  let m := set_minmax (d_of_Z 0, d_of_Z 0) p files in ~ least p files (fst (fst m)) /\ fst (fst m) = d_of_Z 0 /\ snd (fst m) = two64 - 1.
Proof.
  exists 1%nat, [(fun _ => [(d_of_Z 5, d_of_Z 0)]); fun _ => []]. split; [intros f r t [<-|[<-|[]]] R; [intros [<-|[]]; split; vm_compute; reflexivity|intros []]|].
  split; [eexists; split; [left; reflexivity|]; exists 0%nat; split; [lia|discriminate]|]. cbv zeta.
  assert (E1 : fst (fst (set_minmax (d_of_Z 0, d_of_Z 0) 1 [(fun _ => [(d_of_Z 5, d_of_Z 0)]); fun _ => []])) = d_of_Z 0) by (apply B2SF_inj; vm_compute; reflexivity).
  split; [|split; [exact E1|vm_compute; reflexivity]]. rewrite E1. intros ((f & r & t & I & R & T & E) & _). destruct I as [<-|[<-|[]]]; [|contradiction]. destruct T as [<-|[]]. cbn [fst] in E. apply (deqb_spec (d_of_Z 0) (d_of_Z 5)) in E; [|apply of_Z_num|apply of_Z_num]. vm_compute in E. discriminate E.
Qed.
Print Assumptions C59_empty_file_refuted.
