(** C55 and C73, continued: trace numbers over several files, and the reductions. *)
From Coq Require Import Sorted Permutation.
From Verif Require Import Base DecompModel DecompProofs DataIOModel DataIOProofs SortModel SortSpec FlowProofs CommModel RuleProofs.
Import ListNotations.
Open Scope Z_scope.

(** ---- C73 ---- *)
Lemma fold_lmin l : forall a, (fold_left Z.min l a <= a /\ forall x, In x l -> fold_left Z.min l a <= x) /\ (fold_left Z.min l a = a \/ In (fold_left Z.min l a) l).
Proof.
  induction l as [|y l IH]; intros a; cbn [fold_left]; [split; [split; [lia|intros ? []]|left; reflexivity]|]. destruct (IH (Z.min a y)) as ((A & B) & C). split.
  - split; [lia|]. intros x [<-|I]; [lia|apply B, I].
  - destruct C as [C|C]; [|right; right; exact C]. destruct (Z.min_spec a y) as [(_ & M)|(_ & M)]; rewrite M in C at 2; [left; exact C|right; left; symmetry; exact C].
Qed.
Lemma fold_lmax l : forall a, (a <= fold_left Z.max l a /\ forall x, In x l -> x <= fold_left Z.max l a) /\ (fold_left Z.max l a = a \/ In (fold_left Z.max l a) l).
Proof.
  induction l as [|y l IH]; intros a; cbn [fold_left]; [split; [split; [lia|intros ? []]|left; reflexivity]|]. destruct (IH (Z.max a y)) as ((A & B) & C). split.
  - split; [lia|]. intros x [<-|I]; [lia|apply B, I].
  - destruct C as [C|C]; [|right; right; exact C]. destruct (Z.max_spec a y) as [(_ & M)|(_ & M)]; rewrite M in C at 2; [right; left; symmetry; exact C|left; exact C].
Qed.
(** Every rank gets the smallest, the largest and the sum of the ranks' values. *)
Theorem C73_reductions : forall v p, (0 < p)%nat ->
  (forall w, (w < p)%nat -> comm_min v p <= v w <= comm_max v p) /\
  (exists w, (w < p)%nat /\ comm_min v p = v w) /\ (exists w, (w < p)%nat /\ comm_max v p = v w) /\
  (0 <= zsum (map v (seq 0 p)) < two64 -> comm_sum v p = zsum (map v (seq 0 p))).
Proof.
  intros v p P. unfold comm_min, comm_max. destruct (fold_lmin (map v (seq 1 (p - 1))) (v 0%nat)) as ((A1 & A2) & A3). destruct (fold_lmax (map v (seq 1 (p - 1))) (v 0%nat)) as ((B1 & B2) & B3).
  split; [|split; [|split]].
  - intros w W. destruct w as [|w]; [split; assumption|]. assert (In (v (S w)) (map v (seq 1 (p - 1)))) as I by (apply in_map, in_seq; lia). split; [apply A2|apply B2]; exact I.
  - destruct A3 as [A3|A3]; [exists 0%nat; auto|]. apply in_map_iff in A3. destruct A3 as (w & E & I). apply in_seq in I. exists w. split; [lia|auto].
  - destruct B3 as [B3|B3]; [exists 0%nat; auto|]. apply in_map_iff in B3. destruct B3 as (w & E & I). apply in_seq in I. exists w. split; [lia|auto].
  - intros B. unfold comm_sum, sum_below. apply u64_small. exact B.
Qed.
Print Assumptions C73_reductions.
Example C73_reductions_demo : let v := fun w => match w with 0%nat => 5 | 1%nat => -2 | _ => 7 end in comm_min v 3 = -2 /\ comm_max v 3 = 7 /\ comm_sum v 3 = 10.
Proof. split; [|split]; reflexivity. Qed.

(** ---- C55 ---- *)
Lemma flat_map_swap {A B C} (f : A -> B -> list C) (la : list A) (lb : list B) :
  Permutation (flat_map (fun a => flat_map (f a) lb) la) (flat_map (fun b => flat_map (fun a => f a b) la) lb).
Proof.
  induction la as [|a la IH]; cbn [flat_map].
  - clear. induction lb as [|b lb IH]; [constructor|exact IH].
  - eapply Permutation_trans; [apply Permutation_app_head, IH|]. clear. induction lb as [|b lb IH]; [constructor|]. cbn [flat_map]. rewrite <- !app_assoc. apply Permutation_app_head.
    eapply Permutation_trans; [|apply Permutation_app_head, IH]. rewrite !app_assoc. apply Permutation_app_tail, Permutation_app_comm.
Qed.
Lemma NoDup_app_intro {A} (a b : list A) : NoDup a -> NoDup b -> (forall x, In x a -> In x b -> False) -> NoDup (a ++ b).
Proof. intros NA NB D. induction NA as [|x a N NA IH]; [exact NB|]. cbn [app]. constructor; [|apply IH; intros y Y; apply D; right; exact Y]. intros I. apply in_app_or in I. destruct I as [I|I]; [contradiction|]. apply (D x); [left; reflexivity|exact I]. Qed.
Lemma cache_ltn off nf pcs : forall loff c, map snd (cache_numbers off loff c nf pcs) =
  flat_map (fun x => map (fun i => (global_offset (snd x) + i) * nf + (c + Z.of_nat (fst x))) (zr (local_size (snd x)))) (List.combine (seq 0 (length pcs)) pcs).
Proof.
  induction pcs as [|pc pcs IH]; intros loff c; [reflexivity|]. cbn [cache_numbers length seq List.combine flat_map fst snd]. rewrite map_app, map_map, IH. f_equal.
  - apply map_ext. intros i. cbn [snd]. lia.
  - rewrite <- seq_shift. clear. generalize (seq 0 (length pcs)) as s. induction pcs as [|pc' pcs IH2]; intros [|k s]; try reflexivity. cbn [map List.combine flat_map fst snd]. rewrite IH2. f_equal. apply map_ext. intros i. lia.
Qed.
(** The local trace number of trace t of file c is t * (number of files) + c: over all
    the ranks and files every number is given once. *)
Definition numbers (nts : list Z) : list Z := flat_map (fun x => map (fun t => t * Z.of_nat (length nts) + Z.of_nat (fst x)) (zr (snd x))) (List.combine (seq 0 (length nts)) nts).
Theorem C55_local_numbers : forall p nts, (0 < p)%nat -> Forall in_u64 nts ->
  Permutation (map snd (all p (cache p nts))) (numbers nts) /\ NoDup (map snd (all p (cache p nts))).
Proof.
  intros p nts P N. assert (PM : Permutation (map snd (all p (cache p nts))) (numbers nts)).
  { unfold all, cache. rewrite flat_map_concat_map, concat_map, map_map.
    rewrite (map_ext_in _ (fun r => flat_map (fun x => map (fun i => (off_of (snd x) (Z.of_nat p) (Z.of_nat r) + i) * Z.of_nat (length nts) + Z.of_nat (fst x)) (zr (sz_of (snd x) (Z.of_nat p) (Z.of_nat r)))) (List.combine (seq 0 (length nts)) nts))).
    2: { intros r R. apply in_seq in R. rewrite cache_ltn. unfold ilsts. rewrite map_length. generalize (Z.of_nat (length nts)) as nf. intros nf. generalize (seq 0 (length nts)) as s. clear - N R. induction N as [|nt nts N1 N IH]; intros [|k s]; try reflexivity.
      cbn [map List.combine flat_map fst snd]. rewrite IH. f_equal. unfold ilst. rewrite block_decomposition_exact by (assumption || lia). cbn [global_offset local_size]. apply map_ext. intros i. reflexivity. }
    rewrite <- flat_map_concat_map. eapply Permutation_trans; [apply flat_map_swap|]. unfold numbers.
    rewrite !flat_map_concat_map. match goal with |- Permutation ?a ?b => replace a with b; [apply Permutation_refl|] end. f_equal. apply map_ext_in. intros (c, nt) I. cbn [fst snd].
    assert (N1 : in_u64 nt) by (rewrite Forall_forall in N; apply N; apply in_combine_r in I; exact I).
    pose proof (pieces_tile nt (Z.of_nat p) N1 ltac:(lia) p ltac:(lia)) as T. rewrite off_p in T by (destruct N1; lia). rewrite <- T. clear. induction (seq 0 p) as [|r l IH]; [reflexivity|]. cbn [flat_map]. rewrite map_app, IH, map_map. reflexivity. }
  split; [exact PM|]. apply (Permutation_NoDup (Permutation_sym PM)). clear. unfold numbers. set (nf := Z.of_nat (length nts)).
  assert (G : forall k l, Z.of_nat k + Z.of_nat (length l) <= nf -> NoDup (flat_map (fun x => map (fun t => t * nf + Z.of_nat (fst x)) (zr (snd x))) (List.combine (seq k (length l)) l)) /\
    forall v, In v (flat_map (fun x => map (fun t => t * nf + Z.of_nat (fst x)) (zr (snd x))) (List.combine (seq k (length l)) l)) -> Z.of_nat k <= v mod nf).
  { intros k l. revert k. induction l as [|nt l IH]; intros k L; [split; [constructor|intros v []]|]. cbn [length seq List.combine flat_map fst snd] in *. destruct (IH (S k) ltac:(lia)) as (ND & LB). 
    assert (MD : forall t, (t * nf + Z.of_nat k) mod nf = Z.of_nat k) by (intros t; rewrite Z.add_comm, Z.mod_add by lia; apply Z.mod_small; lia). split.
    - apply NoDup_app_intro.
      + apply FinFun.Injective_map_NoDup; [|apply nodup_zrange]. intros a b E. assert (a * nf = b * nf) as Q by lia. apply Z.mul_reg_r in Q; lia.
      + exact ND.
      + intros v A B. apply in_map_iff in A. destruct A as (t & <- & _). apply LB in B. rewrite MD in B. lia.
    - intros v A. apply in_app_or in A. destruct A as [A|A]; [|apply LB in A; lia]. apply in_map_iff in A. destruct A as (t & <- & _). rewrite MD. lia. }
  apply (G 0%nat nts). unfold nf. lia.
Qed.
Print Assumptions C55_local_numbers.
Example C55_local_numbers_demo : map snd (all 2 (cache 2 [5; 3])) = [0; 2; 4; 1; 3; 6; 8; 5] /\ numbers [5; 3] = [0; 2; 4; 6; 8; 1; 3; 5].
Proof. split; reflexivity. Qed.
