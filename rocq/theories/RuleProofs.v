From Coq Require Import Permutation.
From Verif Require Import Base RuleModel.

Lemma mdtype_eqb_spec a b : reflect (a = b) (mdtype_eqb a b).
Proof. destruct a, b; cbn; constructor; congruence. Qed.
Lemma mdtype_eqb_refl a : mdtype_eqb a a = true. Proof. destruct a; reflexivity. Qed.

(** slot numbers in use for a kind *)
Definition nums (t : mdtype) (l : list (Z * entry)) : list Z :=
  map e_num (filter (fun e => mdtype_eqb (e_type e) t) (map snd l)).
Definition dense (r : rule) : Prop :=
  forall t, Permutation (nums t (translate r)) (zrange (Z.to_nat (counts r t))) /\ 0 <= counts r t.
Definition copy_ok (r : rule) : Prop :=
  forall m e, In (m, e) (translate r) -> (m = META_COPY <-> e_type e = MCopy).
Definition good (r : rule) : Prop := NoDup (map fst (translate r)) /\ dense r /\ copy_ok r.

Lemma lookup_in m l e : lookup m l = Some e -> In (m, e) l.
Proof.
  induction l as [|[k e'] l IH]; cbn; [discriminate|]. destruct (Z.eqb_spec k m); [|auto].
  intros H; injection H as ->; subst; auto.
Qed.
Lemma in_lookup m l e : NoDup (map fst l) -> In (m, e) l -> lookup m l = Some e.
Proof.
  induction l as [|[k e'] l IH]; cbn; [tauto|]. intros ND [H|H]; inversion ND; subst.
  - injection H as -> ->. rewrite Z.eqb_refl. reflexivity.
  - destruct (Z.eqb_spec k m) as [->|]; [|auto]. exfalso. apply H2. apply (in_map fst) in H. exact H.
Qed.
Lemma lookup_none m l : lookup m l = None <-> ~ In m (map fst l).
Proof.
  induction l as [|[k e'] l IH]; cbn; [tauto|]. destruct (Z.eqb_spec k m); [|rewrite IH; tauto].
  split; [discriminate|]. intros H; exfalso; auto.
Qed.
Lemma lookup_erase m m' l : lookup m' (erase m l) = if m' =? m then None else lookup m' l.
Proof.
  induction l as [|[k e] l IH]; cbn; [destruct (m' =? m); reflexivity|].
  destruct (Z.eqb_spec k m); cbn; fold (erase m l).
  - rewrite IH. subst. destruct (Z.eqb_spec m' m); [reflexivity|]. destruct (Z.eqb_spec m m'); [congruence|reflexivity].
  - destruct (Z.eqb_spec k m').
    + subst. destruct (Z.eqb_spec m' m); [contradiction|reflexivity].
    + exact IH.
Qed.
Lemma erase_absent m l : ~ In m (map fst l) -> erase m l = l.
Proof.
  induction l as [|[k e] l IH]; cbn; [reflexivity|]. intros H. destruct (Z.eqb_spec k m); [exfalso; auto|].
  cbn. f_equal. apply IH. tauto.
Qed.
Lemma erase_keys m l : incl (map fst (erase m l)) (map fst l).
Proof. intros x. unfold erase. rewrite !in_map_iff. intros (y & H & Hy). apply filter_In in Hy. exists y. tauto. Qed.
Lemma erase_nodup m l : NoDup (map fst l) -> NoDup (map fst (erase m l)).
Proof.
  induction l as [|[k e] l IH]; cbn; [auto|]. intros H; inversion H; subst. destruct (k =? m); cbn; [auto|].
  constructor; [|auto]. intros C. apply H2. apply (erase_keys m l). exact C.
Qed.
Lemma erase_no_key m l : ~ In m (map fst (erase m l)).
Proof. apply lookup_none. rewrite lookup_erase, Z.eqb_refl. reflexivity. Qed.

Lemma lookup_map_snd m l (g : entry -> entry) :
  lookup m (map (fun x => (fst x, g (snd x))) l) = option_map g (lookup m l).
Proof. induction l as [|[k e] l IH]; cbn; [reflexivity|]. destruct (k =? m); [reflexivity|exact IH]. Qed.

(** removing: permutations of ranges *)
Lemma in_zrange x n : In x (zrange n) <-> 0 <= x < Z.of_nat n.
Proof.
  unfold zrange. rewrite in_map_iff. split.
  - intros (k & <- & H). apply in_seq in H. lia.
  - intros H. exists (Z.to_nat x). split; [lia|]. apply in_seq. lia.
Qed.
Lemma nodup_zrange n : NoDup (zrange n).
Proof. unfold zrange. apply FinFun.Injective_map_NoDup; [intros a b; lia|apply seq_NoDup]. Qed.
Lemma zrange_snoc n : zrange (S n) = zrange n ++ [Z.of_nat n].
Proof. unfold zrange. rewrite seq_S, map_app. reflexivity. Qed.
Lemma perm_close k rest n : Permutation (k :: rest) (zrange (S n)) ->
  Permutation (map (fun x => if k <? x then x - 1 else x) rest) (zrange n).
Proof.
  intros P. assert (ND : NoDup (k :: rest)) by (apply (Permutation_NoDup (Permutation_sym P)), nodup_zrange).
  inversion ND as [|? ? Hk ND']; subst.
  assert (IN : forall x, In x (k :: rest) <-> 0 <= x < Z.of_nat (S n)).
  { intros x. rewrite <- in_zrange. split; apply Permutation_in; [exact P|apply Permutation_sym; exact P]. }
  apply NoDup_Permutation.
  - clear P IN ND. induction rest as [|a rest IH]; cbn; [constructor|].
    inversion ND'; subst. constructor; [|apply IH; [intros C; apply Hk; right; exact C|assumption]].
    rewrite in_map_iff. intros (b & E & Hb).
    assert (b <> k) by (intros ->; apply Hk; right; exact Hb). assert (a <> k) by (intros ->; apply Hk; left; reflexivity).
    assert (a = b) by (destruct (k <? b) eqn:?, (k <? a) eqn:?; lia). congruence.
  - apply nodup_zrange.
  - intros x. rewrite in_zrange, in_map_iff. pose proof (proj1 (IN k) (or_introl eq_refl)) as Rk. split.
    + intros (b & <- & Hb). pose proof (proj1 (IN b) (or_intror Hb)).
      assert (b <> k) by (intros ->; contradiction). destruct (k <? b) eqn:?; lia.
    + intros Hx. destruct (Z_lt_ge_dec x k) as [L|G].
      * exists x. split; [destruct (Z.ltb_spec k x); lia|]. destruct (proj2 (IN x) ltac:(lia)); [lia|assumption].
      * exists (x + 1). split; [destruct (Z.ltb_spec k (x + 1)); lia|]. destruct (proj2 (IN (x+1)) ltac:(lia)); [lia|assumption].
Qed.

Lemma nums_cons t m e l : nums t ((m, e) :: l) = if mdtype_eqb (e_type e) t then e_num e :: nums t l else nums t l.
Proof. unfold nums. cbn. destruct (mdtype_eqb (e_type e) t); reflexivity. Qed.
Lemma nums_erase t m l e : NoDup (map fst l) -> lookup m l = Some e ->
  Permutation (nums t l) (if mdtype_eqb (e_type e) t then e_num e :: nums t (erase m l) else nums t (erase m l)).
Proof.
  induction l as [|[k e'] l IH]; cbn [lookup map fst]; [discriminate|]. intros ND H. inversion ND as [|? ? Hn ND']; subst.
  unfold erase. cbn [filter fst]. destruct (Z.eqb_spec k m) as [->|N]; cbn [negb].
  - injection H as ->. fold (erase m l). rewrite erase_absent by exact Hn. rewrite nums_cons. apply Permutation_refl.
  - fold (erase m l). rewrite !nums_cons. specialize (IH ND' H).
    destruct (mdtype_eqb (e_type e') t), (mdtype_eqb (e_type e) t); try exact IH.
    + rewrite perm_swap. constructor. exact IH.
    + constructor. exact IH.
Qed.
Lemma nums_renumber t ty k l :
  nums t (map (fun x => (fst x, if mdtype_eqb (e_type (snd x)) ty && (k <? e_num (snd x))
              then mkEntry (e_type (snd x)) (e_num (snd x) - 1) (e_loc (snd x)) (e_scal (snd x)) else snd x)) l) =
  if mdtype_eqb ty t then map (fun x => if k <? x then x - 1 else x) (nums t l) else nums t l.
Proof.
  induction l as [|[m e] l IH]; cbn [map fst snd]; [destruct (mdtype_eqb ty t); reflexivity|].
  rewrite !nums_cons. rewrite IH. clear IH.
  destruct (mdtype_eqb_spec (e_type e) ty) as [E|E]; cbn [andb].
  - destruct (k <? e_num e) eqn:Ek; cbn [e_type e_num]; destruct (mdtype_eqb_spec (e_type e) t), (mdtype_eqb_spec ty t);
      try congruence; cbn [map]; rewrite ?Ek; reflexivity.
  - destruct (mdtype_eqb_spec (e_type e) t), (mdtype_eqb_spec ty t); try congruence; reflexivity.
Qed.

Lemma rmRule_good m r : good r -> good (rmRule m r).
Proof.
  intros (ND & De & Co). unfold rmRule. destruct (lookup m (translate r)) as [e|] eqn:E; [|split; auto].
  set (g := fun x : Z * entry => _). split; [|split].
  - cbn [translate]. rewrite map_map. cbn [fst]. apply erase_nodup. exact ND.
  - intros t. cbn [translate counts]. destruct (De t) as (P & C).
    pose proof (nums_erase t m _ _ ND E) as P2. unfold g.
    rewrite (nums_renumber t (e_type e) (e_num e)). unfold bump.
    destruct (mdtype_eqb_spec (e_type e) t) as [T|T].
    + replace (mdtype_eqb t (e_type e)) with true by (subst t; rewrite mdtype_eqb_refl; reflexivity).
      assert (Hc : 1 <= counts r t).
      { apply Permutation_sym in P2. pose proof (Permutation_length (Permutation_trans P2 P)) as L.
        cbn [length] in L. unfold zrange in L. rewrite map_length, seq_length in L. lia. }
      split; [|lia]. apply perm_close. replace (S (Z.to_nat (counts r t + -1))) with (Z.to_nat (counts r t)) by lia.
      eapply Permutation_trans; [apply Permutation_sym; exact P2|exact P].
    + destruct (mdtype_eqb_spec t (e_type e)); [congruence|]. split; [|exact C].
      eapply Permutation_trans; [apply Permutation_sym; exact P2|exact P].
  - intros m' e' H. cbn [translate] in H. apply in_map_iff in H. destruct H as ((k & e0) & H1 & H2).
    unfold g in H1. cbn [fst snd] in H1. apply filter_In in H2. destruct H2 as (H2 & _).
    specialize (Co _ _ H2). injection H1 as -> <-. destruct (_ && _); cbn [e_type]; exact Co.
Qed.
Lemma rmRule_absent m r : lookup m (translate (rmRule m r)) = None.
Proof.
  unfold rmRule. destruct (lookup m (translate r)) as [e|] eqn:E; [|exact E]. cbn [translate].
  rewrite lookup_none, map_map. cbn [fst]. apply erase_no_key.
Qed.
Lemma counts_rm_other m r : good r -> lookup m (translate r) = None -> rmRule m r = r.
Proof. intros _ H. unfold rmRule. rewrite H. reflexivity. Qed.

Lemma add_new_good t m loc scal r bad : good r -> lookup m (translate r) = None ->
  (m = META_COPY <-> t = MCopy) ->
  forall num, num = counts r t ->
  good (mkRule (bump (counts r) t 1) (assign m (mkEntry t num loc scal) (translate r)) (r_start r) (r_end r) bad (r_full r)).
Proof.
  intros (ND & De & Co) Hn Hm num ->. pose proof (proj1 (lookup_none _ _) Hn) as Hk.
  unfold good, dense, copy_ok, assign. cbn [translate counts]. rewrite erase_absent by exact Hk. split; [|split].
  - cbn. constructor; assumption.
  - intros t'. rewrite nums_cons. cbn [e_type e_num]. destruct (De t') as (P & C). unfold bump.
    destruct (mdtype_eqb_spec t t') as [->|N].
    + rewrite mdtype_eqb_refl. split; [|lia]. replace (Z.to_nat (counts r t' + 1)) with (S (Z.to_nat (counts r t'))) by lia.
      rewrite zrange_snoc. rewrite Z2Nat.id by exact C. eapply Permutation_trans; [constructor; exact P|].
      apply Permutation_cons_append.
    + destruct (mdtype_eqb_spec t' t); [congruence|]. split; assumption.
  - intros m' e' [H|H]; [injection H as <- <-; cbn; exact Hm|apply Co; exact H].
Qed.
Lemma add_entry_good t m loc scal r : good r -> m <> META_COPY -> t <> MCopy -> good (add_entry t m loc scal r).
Proof.
  intros G Hm Ht. unfold add_entry. apply add_new_good; [apply rmRule_good; exact G|apply rmRule_absent| |reflexivity]. tauto.
Qed.
Lemma copy_absent r : good r -> counts r MCopy = 0 -> lookup META_COPY (translate r) = None.
Proof.
  intros (ND & De & Co) C. destruct (lookup META_COPY (translate r)) as [e|] eqn:E; [|reflexivity].
  apply lookup_in in E. pose proof (proj1 (Co _ _ E) eq_refl) as T. destruct (De MCopy) as (P & _). rewrite C in P.
  cbn in P. apply Permutation_sym, Permutation_nil in P. exfalso.
  assert (In (e_num e) (nums MCopy (translate r))); [|rewrite P in H; destruct H].
  unfold nums. apply in_map. apply filter_In. split; [apply (in_map snd) in E; exact E|]. rewrite T. reflexivity.
Qed.
Lemma copy_present r : good r -> counts r MCopy <> 0 -> exists e, lookup META_COPY (translate r) = Some e.
Proof.
  intros G C. destruct (lookup META_COPY (translate r)) as [e|] eqn:E; [eauto|]. exfalso.
  destruct G as (ND & De & Co). destruct (De MCopy) as (P & Pos).
  assert (I : In 0 (nums MCopy (translate r))).
  { apply (Permutation_in _ (Permutation_sym P)). apply in_zrange. lia. }
  unfold nums in I. apply in_map_iff in I. destruct I as (e & _ & I). apply filter_In in I. destruct I as (I & T).
  apply in_map_iff in I. destruct I as ((k & e') & <- & I). cbn [snd] in T.
  destruct (mdtype_eqb_spec (e_type e') MCopy) as [T'|]; [|discriminate]. apply (proj2 (Co _ _ I)) in T'. subst k.
  apply (in_map fst) in I. cbn in I. apply lookup_none in E. contradiction.
Qed.
Lemma addCopy_good r : good r -> good (addCopy r).
Proof.
  intros G. unfold addCopy. destruct (Z.eqb_spec (counts r MCopy) 0) as [E|E]; [|exact G].
  apply add_new_good; [exact G|apply copy_absent; assumption|tauto|auto].
Qed.
Lemma predefined_copy m p : predefined m = Some p -> (m = META_COPY <-> p = PCopy).
Proof.
  unfold predefined, META_COPY. intros H.
  repeat match type of H with
  | context [match ?x with _ => _ end] => is_var x; destruct x
  end; try discriminate; injection H as <-; split; congruence.
Qed.
Lemma add_proto_good m p r : good r -> predefined m = Some p -> good (add_proto m p r).
Proof.
  intros G H. apply predefined_copy in H. destruct p; cbn [add_proto];
    try (apply add_entry_good; [exact G|intros C; apply H in C; discriminate|discriminate]).
  apply addCopy_good. exact G.
Qed.
Lemma addRule_good m r : good r -> good (snd (addRule m r)).
Proof.
  intros G. unfold addRule. destruct (lookup m (translate r)); [exact G|].
  destruct (predefined m) eqn:E; [|exact G]. apply add_proto_good; assumption.
Qed.
Lemma good_same_map r r' : translate r' = translate r -> counts r' = counts r -> good r -> good r'.
Proof. intros T C (A & B & D). unfold good, dense, copy_ok. rewrite T, C. auto. Qed.
Lemma extent_good r : good r -> good (snd (extent r)).
Proof.
  intros G. unfold extent. destruct (r_full r); [exact G|]. destruct (r_bad r); [|exact G].
  eapply good_same_map; [..|exact G]; reflexivity.
Qed.
Lemma empty_good full : good (empty_rule full).
Proof. split; [constructor|split]; [|intros ? ? []]. intros t. cbn. split; [constructor|lia]. Qed.
Lemma fold_addRule_good ms : forall r, good r -> good (fold_left (fun r m => snd (addRule m r)) ms r).
Proof. induction ms as [|m ms IH]; intros r G; [exact G|]. apply IH, addRule_good, G. Qed.
Lemma newRule_good ms full d x : good (newRule ms full d x).
Proof.
  unfold newRule.
  assert (G : good (fold_left (fun r m => snd (addRule m r)) ms (addIndex 1 (addIndex 2 (empty_rule full))))).
  { apply fold_addRule_good. unfold addIndex. apply add_entry_good; [|cbv; congruence|discriminate].
    apply add_entry_good; [apply empty_good|cbv; congruence|discriminate]. }
  set (r0 := fold_left _ ms _) in *. clearbody r0.
  set (r1 := if d then _ else r0).
  assert (G1 : good r1) by (unfold r1; destruct d; [apply fold_addRule_good|]; exact G). clearbody r1.
  set (r2 := if x then _ else r1).
  assert (G2 : good r2) by (unfold r2; destruct x; [apply fold_addRule_good|]; exact G1). clearbody r2.
  destruct full; [|apply extent_good]; (eapply good_same_map; [..|exact G2]; reflexivity).
Qed.
Lemma add_from_good x r : good r -> (fst x = META_COPY <-> e_type (snd x) = MCopy) -> good (add_from x r).
Proof.
  intros G H. unfold add_from. destruct (lookup (fst x) (translate r)); [exact G|].
  destruct (e_type (snd x)) eqn:T;
    try (apply add_entry_good; [exact G|intros C; apply H in C; discriminate|discriminate]).
  apply addCopy_good, G.
Qed.
Lemma addRules_good r2 r : good r2 -> good r -> good (addRules r2 r).
Proof.
  intros (_ & _ & Co). unfold addRules, copy_ok in *. revert r Co. generalize (translate r2) as l.
  induction l as [|[m e] l IH]; intros r Co G; [exact G|]. cbn [fold_left]. apply IH; [intros; apply Co; right; assumption|].
  apply add_from_good; [exact G|]. cbn. apply Co. left. reflexivity.
Qed.

(** The rules a program can build, never using the COPY name for a typed entry. *)
Definition op_ok (o : op) : Prop :=
  match o with
  | OLong m _ | OShort m _ | OFloat m _ _ | OIndex m => m <> META_COPY
  | _ => True
  end.
Lemma run_op_good r o : good r -> op_ok o -> good (run_op r o).
Proof.
  intros G H. destruct o; cbn [run_op op_ok] in *;
    try (apply add_entry_good; [exact G|exact H|discriminate]).
  - apply addRule_good, G.
  - apply addCopy_good, G.
  - apply rmRule_good, G.
  - apply extent_good, G.
Qed.

(** lookups after each operation *)
Lemma rmRule_lookup m r m' : m' <> m ->
  lookup m' (translate (rmRule m r)) =
  match lookup m (translate r) with
  | None => lookup m' (translate r)
  | Some e => option_map (fun t => if mdtype_eqb (e_type t) (e_type e) && (e_num e <? e_num t)
              then mkEntry (e_type t) (e_num t - 1) (e_loc t) (e_scal t) else t) (lookup m' (translate r))
  end.
Proof.
  intros N. unfold rmRule. destruct (lookup m (translate r)) as [e|]; [|reflexivity]. cbn [translate].
  rewrite (lookup_map_snd m' _ (fun t => if mdtype_eqb (e_type t) (e_type e) && (e_num e <? e_num t)
              then mkEntry (e_type t) (e_num t - 1) (e_loc t) (e_scal t) else t)).
  rewrite lookup_erase. destruct (Z.eqb_spec m' m); [contradiction|reflexivity].
Qed.
Lemma add_entry_new t m loc scal r m' : lookup m (translate r) = None ->
  lookup m' (translate (add_entry t m loc scal r)) =
  if m' =? m then Some (mkEntry t (counts r t) loc scal) else lookup m' (translate r).
Proof.
  intros H. unfold add_entry, rmRule. rewrite H. unfold assign. cbn [translate lookup].
  rewrite lookup_erase, (Z.eqb_sym m m'). destruct (m' =? m); reflexivity.
Qed.
Lemma addCopy_new r m' : good r -> lookup META_COPY (translate r) = None ->
  lookup m' (translate (addCopy r)) = if m' =? META_COPY then Some (mkEntry MCopy 0 0 0) else lookup m' (translate r).
Proof.
  intros G H. unfold addCopy. destruct (Z.eqb_spec (counts r MCopy) 0) as [E|E].
  - unfold assign. cbn [translate lookup]. rewrite lookup_erase, (Z.eqb_sym META_COPY m'). destruct (m' =? META_COPY); reflexivity.
  - destruct (copy_present r G E) as (e & He). congruence.
Qed.
(** kind, field and scale field of an entry *)
Definition kind (e : entry) : mdtype * Z * Z := (e_type e, e_loc e, e_scal e).
Definition proto_kind (p : proto) : mdtype * Z * Z :=
  match p with PLong l => (MLong, l, 0) | PShort l => (MShort, l, 0) | PFloat l s => (MFloat, l, s) | PCopy => (MCopy, 0, 0) end.
Lemma add_proto_lookup m p r m' : good r -> predefined m = Some p -> lookup m (translate r) = None ->
  option_map kind (lookup m' (translate (add_proto m p r))) =
  if m' =? m then Some (proto_kind p) else option_map kind (lookup m' (translate r)).
Proof.
  intros G Hp H. pose proof (predefined_copy m p Hp) as PC. destruct p; cbn [add_proto proto_kind];
    try (unfold addLong, addShort, addSEGYFloat; rewrite add_entry_new by exact H; destruct (m' =? m); reflexivity).
  assert (m = META_COPY) by tauto. subst m. rewrite addCopy_new by assumption. destruct (m' =? META_COPY); reflexivity.
Qed.
Lemma add_proto_keeps m p r m' : good r -> predefined m = Some p -> lookup m (translate r) = None -> m' <> m ->
  lookup m' (translate (add_proto m p r)) = lookup m' (translate r).
Proof.
  intros G Hp H N. pose proof (predefined_copy m p Hp) as PC. destruct p; cbn [add_proto];
    try (unfold addLong, addShort, addSEGYFloat; rewrite add_entry_new by exact H; destruct (Z.eqb_spec m' m); [contradiction|reflexivity]).
  assert (m = META_COPY) by tauto. subst m. rewrite addCopy_new by assumption. destruct (Z.eqb_spec m' META_COPY); [contradiction|reflexivity].
Qed.
Definition clean (e : entry) : Prop :=   (* unused fields are zero, as every constructor makes them *)
  match e_type e with MFloat => True | MLong | MShort => e_scal e = 0 | MIndex | MCopy => e_loc e = 0 /\ e_scal e = 0 end.
Lemma add_from_lookup x r m' : good r -> (fst x = META_COPY <-> e_type (snd x) = MCopy) -> clean (snd x) ->
  (forall e, lookup m' (translate r) = Some e -> lookup m' (translate (add_from x r)) = Some e) /\
  (lookup m' (translate r) = None ->
     option_map kind (lookup m' (translate (add_from x r))) = if m' =? fst x then Some (kind (snd x)) else None).
Proof.
  intros G H C. unfold add_from. destruct (lookup (fst x) (translate r)) as [e0|] eqn:E.
  { split; [auto|]. intros N. destruct (Z.eqb_spec m' (fst x)); [congruence|]. rewrite N. reflexivity. }
  unfold clean in C.
  destruct (e_type (snd x)) eqn:T; unfold addLong, addShort, addSEGYFloat, addIndex.
  1-4: rewrite add_entry_new by exact E; split;
    [intros e He; destruct (Z.eqb_spec m' (fst x)); [congruence|exact He]
    |intros N; rewrite N; destruct (m' =? fst x); [cbn; unfold kind; rewrite T; first [rewrite C | (let C1 := fresh in let C2 := fresh in destruct C as (C1 & C2); rewrite C1, C2) | idtac]; reflexivity|reflexivity]].
  assert (F : fst x = META_COPY) by tauto. rewrite F in *. rewrite addCopy_new by assumption. split.
  - intros e He. destruct (Z.eqb_spec m' META_COPY); [congruence|exact He].
  - intros N. rewrite N. destruct (m' =? META_COPY); [|reflexivity]. cbn. unfold kind. rewrite T. destruct C as (-> & ->). reflexivity.
Qed.
Lemma addRules_lookup r2 r m' : good r2 -> good r -> (forall m e, In (m, e) (translate r2) -> clean e) ->
  (forall e, lookup m' (translate r) = Some e -> lookup m' (translate (addRules r2 r)) = Some e) /\
  (lookup m' (translate r) = None ->
     option_map kind (lookup m' (translate (addRules r2 r))) = option_map kind (lookup m' (translate r2))).
Proof.
  intros (_ & _ & Co). unfold addRules, copy_ok in *. revert r Co. generalize (translate r2) as l.
  induction l as [|x l IH]; intros r Co G Cl; [split; cbn; [auto|]; intros ->; reflexivity|]. cbn [fold_left].
  destruct x as [m e].
  assert (Hx : fst (m, e) = META_COPY <-> e_type (snd (m, e)) = MCopy) by (apply Co; left; reflexivity).
  assert (Cx : clean (snd (m, e))) by (apply (Cl m); left; reflexivity).
  destruct (add_from_lookup (m, e) r m' G Hx Cx) as (A & B).
  destruct (IH (add_from (m, e) r)) as (A' & B'); [intros; apply Co; right; assumption|apply add_from_good; assumption
    |intros; eapply Cl; right; eassumption|]. split.
  - intros e' He. apply A', A, He.
  - intros N. specialize (B N). cbn [fst snd lookup] in *. rewrite (Z.eqb_sym m m').
    destruct (Z.eqb_spec m' m) as [->|].
    + destruct (lookup m (translate (add_from (m, e) r))) as [e1|] eqn:E1; [|discriminate].
      rewrite (A' e1 eq_refl). exact B.
    + apply B'. destruct (lookup m' (translate (add_from (m, e) r))); [discriminate|reflexivity].
Qed.

(** slots of different entries of one kind differ, and are below the count *)
Lemma slot_in t r m e : lookup m (translate r) = Some e -> e_type e = t -> In (e_num e) (nums t (translate r)).
Proof.
  intros H T. apply lookup_in in H. unfold nums. apply in_map. apply filter_In. split.
  - apply (in_map snd) in H. exact H.
  - rewrite T. apply mdtype_eqb_refl.
Qed.
Lemma slots_range r m e : good r -> lookup m (translate r) = Some e -> 0 <= e_num e < counts r (e_type e).
Proof.
  intros (_ & De & _) H. destruct (De (e_type e)) as (P & C).
  pose proof (Permutation_in _ P (slot_in _ _ _ _ H eq_refl)) as I. apply in_zrange in I. lia.
Qed.
Lemma slots_distinct r m m' e e' : good r -> lookup m (translate r) = Some e -> lookup m' (translate r) = Some e' ->
  m <> m' -> e_type e = e_type e' -> e_num e <> e_num e'.
Proof.
  intros (ND & De & _) H H' N T E. destruct (De (e_type e)) as (P & _).
  pose proof (nums_erase (e_type e) m _ _ ND H) as P2. rewrite mdtype_eqb_refl in P2.
  assert (D : NoDup (e_num e :: nums (e_type e) (erase m (translate r)))).
  { apply (Permutation_NoDup P2). apply (Permutation_NoDup (Permutation_sym P)). apply nodup_zrange. }
  inversion D as [|? ? X _]; subst. apply X. rewrite E. unfold nums. apply in_map. apply filter_In. split.
  - apply lookup_in in H'. apply (in_map snd (erase m (translate r)) (m', e')). apply filter_In. split; [exact H'|]. cbn. lia.
  - rewrite T. apply mdtype_eqb_refl.
Qed.
