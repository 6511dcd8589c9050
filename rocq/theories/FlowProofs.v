From Coq Require Import String Ascii DecimalString Permutation.
From Coq Require Decimal DecimalN.
From Verif Require Import Base DecompModel DecompSpec DecompProofs DataIOModel DataIOProofs SortSpec SortModel SortProofs FlowModel.
Import ListNotations.
Open Scope Z_scope.

Lemma gkeqb_spec a b : reflect (a = b) (gkeqb a b).
Proof. destruct a as (a1, a2), b as (b1, b2). unfold gkeqb. cbn [fst snd]. destruct (Z.eqb_spec a1 b1), (Z.eqb_spec a2 b2); constructor; congruence. Qed.

(** ---- blocks ---- *)
Lemma block_loop_spec max lnt : (0 < max)%nat -> forall fuel i, (lnt - i < fuel)%nat -> (i <= lnt)%nat ->
  flat_map (fun b => seq (fst b) (snd b)) (block_loop fuel max lnt i) = seq i (lnt - i) /\
  length (block_loop fuel max lnt i) = ceil_div (lnt - i) max /\
  Forall (fun b => (0 < snd b <= max)%nat /\ (fst b + snd b <= lnt)%nat) (block_loop fuel max lnt i).
Proof.
  intros M. induction fuel as [|fuel IH]; intros i F I; [lia|]. cbn [block_loop]. destruct (Nat.ltb_spec i lnt) as [L|L].
  - destruct (Nat.ltb_spec (i + max) lnt) as [L2|L2].
    + destruct (IH (i + max)%nat ltac:(lia) ltac:(lia)) as (A & B & C). cbn [flat_map fst snd length]. split; [|split].
      * rewrite A, <- seq_app. f_equal. lia.
      * rewrite B. unfold ceil_div. replace (lnt - i)%nat with (1 * max + (lnt - (i + max)))%nat by lia. rewrite Nat.div_add_l, Nat.add_comm with (n := (1 * max)%nat), Nat.mod_add by lia. lia.
      * constructor; [cbn [fst snd]; lia|exact C].
    + assert (E : block_loop fuel max lnt (i + max) = []) by (destruct fuel; [reflexivity|]; cbn [block_loop]; destruct (Nat.ltb_spec (i + max) lnt); [lia|reflexivity]). rewrite E. cbn [flat_map fst snd length]. rewrite app_nil_r. split; [reflexivity|]. split.
      * unfold ceil_div. destruct (Nat.eq_dec (lnt - i) max) as [->|NE]; [rewrite Nat.div_same, Nat.mod_same by lia; reflexivity|]. rewrite Nat.div_small, Nat.mod_small by lia. destruct (Nat.ltb_spec 0 (lnt - i)); lia.
      * constructor; [cbn [fst snd]; lia|constructor].
  - replace (lnt - i)%nat with 0%nat by lia. split; [reflexivity|]. split; [|constructor]. unfold ceil_div. rewrite Nat.div_small, Nat.mod_small by lia. reflexivity.
Qed.
Lemma block_list_spec max lnt : (0 < max)%nat ->
  flat_map (fun b => seq (fst b) (snd b)) (block_list max lnt) = seq 0 lnt /\ length (block_list max lnt) = ceil_div lnt max /\
  Forall (fun b => (0 < snd b <= max)%nat /\ (fst b + snd b <= lnt)%nat) (block_list max lnt).
Proof. intros M. pose proof (block_loop_spec max lnt M (S lnt) 0%nat ltac:(lia) ltac:(lia)) as H. rewrite Nat.sub_0_r in H. exact H. Qed.
Lemma ceil_mono max a b : (0 < max)%nat -> (a <= b)%nat -> (ceil_div a max <= ceil_div b max)%nat.
Proof.
  intros M L. unfold ceil_div. pose proof (Nat.div_le_mono a b max ltac:(lia) L) as D. pose proof (Nat.div_mod a max ltac:(lia)). pose proof (Nat.div_mod b max ltac:(lia)).
  destruct (Nat.ltb_spec 0 (a mod max)), (Nat.ltb_spec 0 (b mod max)); try lia. destruct (Nat.eq_dec (a / max) (b / max)) as [E|]; [rewrite E in *; lia|lia].
Qed.

Section Moves.
  Variable srt : forall A : Type, (A -> A -> bool) -> list A -> list A.
  Hypothesis SRT : std_sort srt.
  Lemma nth_weak (l : list Z) i : forall P, strict_weak P (fun s1 s2 => nth (i + s1) l 0 <? nth (i + s2) l 0).
  Proof using. clear SRT. intros P. split; [intros; apply Z.ltb_irrefl|]. split; intros x y z _ _ _; rewrite ?Z.ltb_lt, ?Z.ltb_ge; lia. Qed.
  Lemma block_moves_perm ilst olst b : Permutation (block_moves srt ilst olst b) (map (fun k => (nth k ilst 0, nth k olst 0)) (seq (fst b) (snd b))).
  Proof using SRT.
    destruct b as (i, n). unfold block_moves. cbn [fst snd]. destruct (SRT nat (fun s1 s2 => nth (i + s1) olst 0 <? nth (i + s2) olst 0) (seq 0 n) (nth_weak olst i _)) as (P & _).
    eapply Permutation_trans; [apply Permutation_map, Permutation_sym, P|]. replace (seq i n) with (map (fun s => (i + s)%nat) (seq 0 n)).
    - rewrite map_map. apply Permutation_refl.
    - clear. replace (seq i n) with (seq (i + 0) n) by (f_equal; lia). generalize 0%nat as b. induction n as [|n IH]; intros b; [reflexivity|]. cbn [seq map]. f_equal. rewrite IH. f_equal. lia.
  Qed.
  Lemma concat_repeat_nil {A} n : concat (repeat (@nil A) n) = []. Proof. induction n; [reflexivity|exact IHn]. Qed.
  Lemma combine_nth_map (a b : list Z) : length a = length b -> map (fun k => (nth k a 0, nth k b 0)) (seq 0 (length a)) = combine a b.
  Proof using.
    clear SRT. revert b. induction a as [|x a IH]; intros [|y b] L; try discriminate; [reflexivity|]. cbn [length seq map nth combine]. f_equal. rewrite <- seq_shift, map_map. cbn [nth]. apply IH. cbn in L. lia.
  Qed.
  (** All calls together move every local trace once. *)
  Lemma file_calls_moves max biggest f : (0 < max)%nat -> length (f_olst f) = length (f_ilst f) ->
    Permutation (concat (file_calls srt max biggest f)) (combine (f_ilst f) (f_olst f)).
  Proof using SRT.
    intros M L. unfold file_calls. cbv zeta. rewrite concat_app, concat_repeat_nil, app_nil_r. rewrite <- (combine_nth_map (f_ilst f) (f_olst f)) by congruence.
    destruct (block_list_spec max (length (f_ilst f)) M) as (A & _). rewrite <- A. clear A. induction (block_list max (length (f_ilst f))) as [|b l IH]; [constructor|]. cbn [map concat flat_map]. rewrite map_app. apply Permutation_app; [apply block_moves_perm|exact IH].
  Qed.
End Moves.

(** ---- the pieces of a file over the ranks ---- *)
Lemma pieces_tile n p : in_u64 n -> 0 < p -> forall m, Z.of_nat m <= p ->
  flat_map (fun r => map (fun i => off_of n p (Z.of_nat r) + i) (zr (sz_of n p (Z.of_nat r)))) (seq 0 m) = zr (off_of n p (Z.of_nat m)).
Proof.
  intros N P. induction m as [|m IH]; intros L.
  - cbn [seq flat_map]. change (Z.of_nat 0) with 0. rewrite off_0 by (destruct N; lia). reflexivity.
  - rewrite seq_S, flat_map_app, IH by lia. cbn [flat_map Nat.add]. rewrite app_nil_r. replace (Z.of_nat (S m)) with (Z.of_nat m + 1) by lia. rewrite off_step by (destruct N; lia).
    assert (0 <= off_of n p (Z.of_nat m)). { unfold off_of. pose proof (Z.mod_pos_bound n p P). pose proof (Z.div_pos n p ltac:(destruct N; lia) P). assert (0 <= n / p * Z.of_nat m) by (apply Z.mul_nonneg_nonneg; lia). lia. }
    assert (0 <= sz_of n p (Z.of_nat m)). { unfold sz_of. pose proof (Z.div_pos n p ltac:(destruct N; lia) P). destruct (Z.of_nat m <? n mod p); lia. }
    symmetry. apply zr_app; lia.
Qed.
Lemma flat_map_swap {A B C} (f : A -> B -> list C) (la : list A) (lb : list B) :
  Permutation (flat_map (fun a => flat_map (f a) lb) la) (flat_map (fun b => flat_map (fun a => f a b) la) lb).
Proof.
  induction la as [|a la IH]; [cbn; induction lb; [constructor|assumption]|]. cbn [flat_map]. eapply Permutation_trans; [apply Permutation_app_head, IH|]. clear IH.
  induction lb as [|b lb IH]; [constructor|]. cbn [flat_map]. rewrite <- !app_assoc. apply Permutation_app_head. rewrite !app_assoc. eapply Permutation_trans; [apply Permutation_app_tail, Permutation_app_comm|]. rewrite <- app_assoc. apply Permutation_app_head, IH.
Qed.

(** ---- add ---- *)
(** Sum of the sizes of the files of a group. *)
Definition gsum (k : gkey) (fl : list (gkey * Z)) : Z := zsum (map snd (filter (fun f => gkeqb (fst f) k) fl)).
(** A file's entry on rank r when the group before it holds [off] traces. *)
Definition entry (p r : Z) (f : gkey * Z) (off : Z) : fdesc :=
  mkFd (fst f) (snd f) (map (fun i => off_of (snd f) p r + i) (zr (sz_of (snd f) p r))) (map (fun i => off + (off_of (snd f) p r + i)) (zr (sz_of (snd f) p r))).
Fixpoint entries (p r : Z) (before : list (gkey * Z)) (fl : list (gkey * Z)) : list fdesc :=
  match fl with [] => [] | f :: fl => entry p r f (gsum (fst f) before) :: entries p r (before ++ [f]) fl end.
Lemma gsum_app k a b : gsum k (a ++ b) = gsum k a + gsum k b.
Proof. unfold gsum. rewrite filter_app, map_app. apply zsum_app. Qed.
Lemma gsum_nonneg k fl : Forall (fun f => 0 <= snd f) fl -> 0 <= gsum k fl.
Proof. unfold gsum. induction 1 as [|f fl H _ IH]; [cbn; lia|]. cbn [filter]. destruct (gkeqb (fst f) k); [|exact IH]. cbn [map]. unfold zsum in *. cbn [fold_right]. lia. Qed.
Lemma off_sz_bound n p r i : in_u64 n -> 0 < p -> 0 <= r < p -> In i (zr (sz_of n p r)) -> 0 <= off_of n p r + i < n.
Proof.
  intros N P R I. apply in_zr in I. destruct (piece_bounds n p r N P R) as (pc & E & B1 & _ & B2). rewrite block_decomposition_exact in E by assumption. injection E as <-. cbn [global_offset local_size] in *. unfold off_of, sz_of in *. lia.
Qed.
Lemma add_files_spec p r fl : 0 < p -> 0 <= r < p -> Forall (fun f => in_u64 (snd f)) fl -> (forall k, gsum k fl < two64) -> add_files p r fl = entries p r [] fl.
Proof.
  intros P R F B. unfold add_files.
  assert (G : forall fl before fs off, Forall (fun f => in_u64 (snd f)) (before ++ fl) -> (forall k, gsum k (before ++ fl) < two64) -> (forall k, off k = gsum k before) ->
    fst (fold_left (add_file p r) fl (fs, off)) = fs ++ entries p r before fl).
  { clear fl F B. induction fl as [|(k, nt) fl IH]; intros before fs off F B O; [cbn; symmetry; apply app_nil_r|]. cbn [fold_left].
    assert (FN : in_u64 nt) by (apply Forall_app in F; destruct F as (_ & F); inversion F; assumption).
    assert (NN : forall k, 0 <= gsum k before) by (intros k'; apply gsum_nonneg; apply Forall_app in F; destruct F as (F & _); eapply Forall_impl; [|exact F]; intros a (H & _); exact H).
    assert (NF : forall k, 0 <= gsum k fl) by (intros k'; apply gsum_nonneg; apply Forall_app in F; destruct F as (_ & F); inversion F as [|? ? _ F']; subst; eapply Forall_impl; [|exact F']; intros a (H & _); exact H).
    assert (KB : gsum k before + nt < two64). { specialize (B k). rewrite gsum_app in B. change ((k, nt) :: fl) with ([(k, nt)] ++ fl) in B. rewrite gsum_app in B. specialize (NF k). unfold gsum at 2 in B. cbn [filter fst] in B. destruct (gkeqb_spec k k); [|congruence]. cbn in B. lia. }
    unfold add_file at 2. rewrite block_decomposition_exact by (assumption || lia). cbn [global_offset local_size]. fold (off_of nt p r). fold (sz_of nt p r).
    rewrite IH with (before := before ++ [(k, nt)]).
    - rewrite <- app_assoc. f_equal. cbn [entries app fst]. f_equal. unfold entry. cbn [fst snd]. rewrite O. f_equal; apply map_ext_in; intros i I; pose proof (off_sz_bound nt p r i FN P R I) as BB; destruct FN.
      + apply u64_small. unfold in_u64. lia.
      + specialize (NN k). rewrite u64_small; [lia|unfold in_u64; lia].
    - rewrite <- app_assoc. exact F.
    - intros k'. rewrite <- app_assoc. apply B.
    - intros k'. rewrite gsum_app. unfold gsum at 2. cbn [filter fst]. destruct (gkeqb_spec k' k) as [->|NE].
      + destruct (gkeqb_spec k k); [|congruence]. cbn. rewrite O. specialize (NN k). destruct FN. rewrite u64_small; [lia|unfold in_u64; lia].
      + destruct (gkeqb_spec k k'); [congruence|]. cbn. rewrite O. lia. }
  rewrite (G fl [] [] (fun _ => 0)); [reflexivity|exact F|exact B|reflexivity].
Qed.
Lemma combine_map {A} (f g : A -> Z) l : combine (map f l) (map g l) = map (fun x => (f x, g x)) l.
Proof. induction l as [|x l IH]; [reflexivity|]. cbn. f_equal. exact IH. Qed.

(** ---- names ---- *)
Definition digit (c : ascii) : Prop := In c ["0"; "1"; "2"; "3"; "4"; "5"; "6"; "7"; "8"; "9"]%char.
Fixpoint all_digits (s : string) : Prop := match s with EmptyString => True | String c r => digit c /\ all_digits r end.
Lemma uint_digits d : all_digits (NilEmpty.string_of_uint d).
Proof. induction d; cbn; try exact I; (split; [unfold digit; cbn; tauto|exact IHd]). Qed.
Lemma dec_digits z : all_digits (dec_string z) /\ dec_string z <> EmptyString.
Proof. unfold dec_string. destruct (N.to_uint (Z.to_N z)); cbn; (split; [|discriminate]); try (split; [unfold digit; cbn; tauto|]); try exact I; apply uint_digits. Qed.
Lemma to_uint_nonnil n : N.to_uint n <> Decimal.Nil.
Proof. destruct n as [|q]; [discriminate|]. intros H. pose proof (DecimalN.Unsigned.of_to (N.pos q)) as E. rewrite H in E. discriminate E. Qed.
Lemma dec_inj a b : 0 <= a -> 0 <= b -> dec_string a = dec_string b -> a = b.
Proof.
  intros A B E. unfold dec_string in E. apply (f_equal NilZero.uint_of_string) in E. rewrite !NilZero.usu in E by apply to_uint_nonnil. injection E as E.
  apply (f_equal N.of_uint) in E. rewrite !DecimalN.Unsigned.of_to in E. lia.
Qed.
Lemma app_inj_l (a b c : string) : (a ++ b)%string = (a ++ c)%string -> b = c.
Proof. induction a as [|x a IH]; [auto|]. cbn. intros H. injection H as H. auto. Qed.
Lemma split_underscore : forall a b x y, all_digits a -> all_digits b -> (a ++ "_" ++ x)%string = (b ++ "_" ++ y)%string -> a = b /\ x = y.
Proof.
  induction a as [|c a IH]; intros [|d b] x y A B E; cbn in *.
  - injection E as ->. auto.
  - injection E as E _. destruct B as (B & _). subst d. unfold digit in B. cbn in B. exfalso. repeat (destruct B as [B|B]; [discriminate B|]). exact B.
  - injection E as E _. destruct A as (A & _). subst c. unfold digit in A. cbn in A. exfalso. repeat (destruct A as [A|A]; [discriminate A|]). exact A.
  - injection E as -> E. destruct (IH b x y) as (-> & ->); tauto.
Qed.
Lemma app_tail_inj : forall (a b t : string), (a ++ t)%string = (b ++ t)%string -> a = b.
Proof.
  assert (L : forall a b, String.length (a ++ b) = (String.length a + String.length b)%nat) by (induction a as [|x a IH]; intros b; [reflexivity|]; cbn; f_equal; apply IH).
  induction a as [|x a IH]; intros [|y b] t E; [reflexivity| | |].
  - exfalso. apply (f_equal String.length) in E. cbn in E. rewrite L in E. lia.
  - exfalso. apply (f_equal String.length) in E. cbn in E. rewrite L in E. lia.
  - cbn in E. injection E as -> E. f_equal. eapply IH, E.
Qed.
Lemma str_assoc (a b c : string) : ((a ++ b) ++ c)%string = (a ++ b ++ c)%string.
Proof. induction a as [|x a IH]; [reflexivity|]. cbn. f_equal. exact IH. Qed.
