(** Properties C25, C26, C27: the metadata rules. *)
From Coq Require Import Permutation.
From Verif Require Import Base RuleModel RuleProofs.

(** A rule a program can hold: made by a constructor or by adding a whole other
    rule, and changed by any history of calls ([op_ok]: the name COPY is not
    given to a typed entry). *)
Inductive reachable : rule -> Prop :=
| reach_new ms full defaults extras : reachable (newRule ms full defaults extras)
| reach_op r o : reachable r -> op_ok o -> reachable (run_op r o)
| reach_all r2 r : reachable r2 -> reachable r -> reachable (addRules r2 r).
Lemma reachable_good r : reachable r -> good r.
Proof. induction 1; [apply newRule_good|apply run_op_good; assumption|apply addRules_good; assumption]. Qed.

(** The entries of one kind, as the map holds them. *)
Definition entries (t : mdtype) (r : rule) : list entry :=
  filter (fun e => mdtype_eqb (e_type e) t) (map snd (translate r)).

(** C25: in every reachable rule the slot numbers of each kind are exactly
    0 .. count-1, each once. *)
Theorem C25_dense_slots :
  forall r t, reachable r ->
  Permutation (map e_num (entries t r)) (zrange (Z.to_nat (counts r t))) /\ 0 <= counts r t /\ NoDup (map fst (translate r)).
Proof. intros r t H. destruct (reachable_good r H) as (ND & De & _). destruct (De t). split; [assumption|split; assumption]. Qed.
Print Assumptions C25_dense_slots.
Example C25_nonvacuous :
  let r := run_op (run_op (run_op (newRule [26; 27] true true true) (ORm 26)) (OLong 31 9)) OCopy in
  reachable r /\ counts r MLong = 8 /\ map e_num (entries MLong r) = [7; 6; 5; 4; 3; 2; 1; 0] /\ counts r MCopy = 1.
Proof. cbv zeta. split; [repeat (apply reach_op; [|cbv; congruence || exact I]); apply reach_new|]. split; [|split]; reflexivity. Qed.
(** Without that restriction it is false: a Long named COPY is overwritten by
    addCopy without being uncounted. *)
Theorem C25_copy_name_refuted :
  exists r t, r = run_op (run_op (newRule [] true false false) (OLong META_COPY 9)) OCopy /\
  ~ Permutation (map e_num (entries t r)) (zrange (Z.to_nat (counts r t))).
Proof.
  eexists. exists MLong. split; [reflexivity|]. intros P. apply Permutation_length in P. vm_compute in P. discriminate.
Qed.
Print Assumptions C25_copy_name_refuted.

(** C26: adding existing metadata is refused and changes nothing; adding new
    predefined metadata adds just that entry; *)
Theorem C26_add :
  forall r m, reachable r ->
  (forall e, lookup m (translate r) = Some e -> addRule m r = (false, r)) /\
  (predefined m = None -> addRule m r = (false, r)) /\
  (forall p, predefined m = Some p -> lookup m (translate r) = None ->
     fst (addRule m r) = true /\
     option_map kind (lookup m (translate (snd (addRule m r)))) = Some (proto_kind p) /\
     forall m', m' <> m -> lookup m' (translate (snd (addRule m r))) = lookup m' (translate r)).
Proof.
  intros r m H. apply reachable_good in H. unfold addRule. split; [|split].
  - intros e E. rewrite E. reflexivity.
  - intros E. rewrite E. destruct (lookup m (translate r)); reflexivity.
  - intros p Hp N. rewrite N, Hp. cbn [fst snd]. split; [reflexivity|]. split.
    + rewrite add_proto_lookup by assumption. rewrite Z.eqb_refl. reflexivity.
    + intros m' D. apply add_proto_keeps; assumption.
Qed.
Print Assumptions C26_add.
(** removing metadata removes only it: others keep kind and field, and their
    slots keep their relative order; *)
Theorem C26_remove :
  forall r m, reachable r -> lookup m (translate (rmRule m r)) = None /\
  forall m', m' <> m ->
    option_map kind (lookup m' (translate (rmRule m r))) = option_map kind (lookup m' (translate r)) /\
    forall m'' e1 e2 e1' e2', m'' <> m -> e_type e1 = e_type e2 ->
      lookup m' (translate r) = Some e1 -> lookup m'' (translate r) = Some e2 ->
      lookup m' (translate (rmRule m r)) = Some e1' -> lookup m'' (translate (rmRule m r)) = Some e2' ->
      (e_num e1 < e_num e2 -> e_num e1' < e_num e2').
Proof.
  intros r m Re. apply reachable_good in Re. split; [apply rmRule_absent|]. intros m' N. rewrite rmRule_lookup by exact N. split.
  - destruct (lookup m (translate r)) as [e|]; [|reflexivity]. destruct (lookup m' (translate r)) as [t|]; [|reflexivity].
    cbn. destruct (_ && _); reflexivity.
  - intros m'' e1 e2 e1' e2' N2 T E1 E2. rewrite rmRule_lookup by exact N2. rewrite E1, E2.
    destruct (lookup m (translate r)) as [e|] eqn:E; cbn [option_map]; intros H1 H2; injection H1 as <-; injection H2 as <-; [|lia].
    rewrite T. destruct (mdtype_eqb_spec (e_type e2) (e_type e)) as [T2|]; cbn [andb]; [|lia].
    pose proof (slots_distinct r m m' e e1 Re E E1 ltac:(congruence) ltac:(congruence)).
    destruct (Z.ltb_spec (e_num e) (e_num e1)), (Z.ltb_spec (e_num e) (e_num e2)); cbn [e_num]; lia.
Qed.
Print Assumptions C26_remove.
Lemma clean_reachable r : reachable r -> forall m e, In (m, e) (translate r) -> clean e.
Proof.
  assert (RM : forall m r, (forall k e, In (k, e) (translate r) -> clean e) -> forall k e, In (k, e) (translate (rmRule m r)) -> clean e).
  { intros m r0 H k e. unfold rmRule. destruct (lookup m (translate r0)) as [x|]; [|apply H]. cbn [translate]. rewrite in_map_iff.
    intros ((k0 & e0) & E & I). apply filter_In in I. destruct I as (I & _). specialize (H _ _ I). cbn [fst snd] in E.
    injection E as _ <-. destruct (_ && _); [|exact H]. unfold clean in *. cbn [e_type e_loc e_scal]. exact H. }
  assert (AS : forall m e l, clean e -> (forall k e, In (k, e) l -> clean e) -> forall k e', In (k, e') (assign m e l) -> clean e').
  { intros m e l Ce H k e' [I|I]; [injection I as _ <-; exact Ce|]. apply filter_In in I. apply (H k). tauto. }
  assert (AE : forall t m loc scal r, clean (mkEntry t 0 loc scal) -> (forall k e, In (k, e) (translate r) -> clean e) ->
     forall k e, In (k, e) (translate (add_entry t m loc scal r)) -> clean e).
  { intros t m loc scal r0 C H. unfold add_entry. cbn [translate]. apply AS; [exact C|]. apply RM. exact H. }
  assert (AC : forall r, (forall k e, In (k, e) (translate r) -> clean e) -> forall k e, In (k, e) (translate (addCopy r)) -> clean e).
  { intros r0 H. unfold addCopy. destruct (_ =? 0); [|exact H]. cbn [translate]. apply AS; [split; reflexivity|exact H]. }
  assert (AR : forall m r, (forall k e, In (k, e) (translate r) -> clean e) -> forall k e, In (k, e) (translate (snd (addRule m r))) -> clean e).
  { intros m r0 H. unfold addRule. destruct (lookup m (translate r0)); [exact H|]. destruct (predefined m) as [p|]; [|exact H].
    cbn [snd]. destruct p; cbn [add_proto]; try (apply AE; [exact I || reflexivity|exact H]). apply AC, H. }
  assert (EX : forall r, translate (snd (extent r)) = translate r).
  { intros r0. unfold extent. destruct (r_full r0); [reflexivity|]. destruct (r_bad r0); reflexivity. }
  assert (FR : forall ms r, (forall k e, In (k, e) (translate r) -> clean e) ->
     forall k e, In (k, e) (translate (fold_left (fun r m => snd (addRule m r)) ms r)) -> clean e).
  { induction ms as [|m ms IH]; intros r0 H; [exact H|]. apply IH, AR, H. }
  induction 1 as [ms full d x|r o _ IH Ho|r2 r _ IH2 _ IH].
  - unfold newRule.
    assert (H0 : forall k e, In (k, e) (translate (fold_left (fun r m => snd (addRule m r)) ms (addIndex 1 (addIndex 2 (empty_rule full))))) -> clean e).
    { apply FR. unfold addIndex. apply AE; [split; reflexivity|]. apply AE; [split; reflexivity|]. intros k e []. }
    set (r0 := fold_left _ ms _) in *. clearbody r0.
    set (r1 := if d then _ else r0). assert (G1 : forall k e, In (k, e) (translate r1) -> clean e) by (unfold r1; destruct d; [apply FR|]; exact H0). clearbody r1.
    set (r3 := if x then _ else r1). assert (G2 : forall k e, In (k, e) (translate r3) -> clean e) by (unfold r3; destruct x; [apply FR|]; exact G1). clearbody r3.
    destruct full; [exact G2|]. intros k e. rewrite EX. apply G2.
  - destruct o; cbn [run_op]; unfold addLong, addShort, addSEGYFloat, addIndex;
      try (apply AE; [exact I || reflexivity || (split; reflexivity)|exact IH]).
    + apply AR, IH.
    + apply AC, IH.
    + apply RM, IH.
    + intros k e. rewrite EX. apply IH.
  - unfold addRules. revert r IH IH2. generalize (translate r2) as l. induction l as [|x l IHl]; intros r0 IH IH2; [exact IH|].
    cbn [fold_left]. apply IHl; [|intros k e I; apply (IH2 k); right; exact I].
    assert (Cx : clean (snd x)) by (apply (IH2 (fst x)); left; destruct x; reflexivity).
    unfold add_from. destruct (lookup (fst x) (translate r0)); [exact IH|]. unfold clean in Cx.
    destruct (e_type (snd x)); unfold addLong, addShort, addSEGYFloat, addIndex;
      try (apply AE; [exact I || reflexivity || (split; reflexivity)|exact IH]). apply AC, IH.
Qed.
(** adding a whole rule keeps every existing entry as it is and adds exactly
    the missing ones. *)
Theorem C26_add_whole_rule :
  forall r2 r m, reachable r2 -> reachable r ->
  (forall e, lookup m (translate r) = Some e -> lookup m (translate (addRules r2 r)) = Some e) /\
  (lookup m (translate r) = None ->
     option_map kind (lookup m (translate (addRules r2 r))) = option_map kind (lookup m (translate r2))).
Proof.
  intros r2 r m H2 H. apply addRules_lookup; [apply reachable_good; exact H2|apply reachable_good; exact H|apply clean_reachable, H2].
Qed.
Print Assumptions C26_add_whole_rule.
Example C26_nonvacuous :
  let r := newRule [26] true false false in
  reachable r /\ fst (addRule 26 r) = false /\ fst (addRule 27 r) = true /\ fst (addRule 31 r) = false /\
  lookup 26 (translate (rmRule 26 (newRule [27; 26; 5] true false false))) = None /\
  lookup 5 (translate (rmRule 26 (newRule [27; 26; 5] true false false))) = Some (mkEntry MLong 1 5 0) /\
  lookup 20 (translate (addRules (newRule [] true true false) r)) = Some (mkEntry MFloat 5 73 71).
Proof. cbv zeta. split; [apply reach_new|]. repeat split. Qed.

(** C27: field ranges (1-based first byte, length) of a predefined entry. *)
Definition proto_fields (p : proto) : list (Z * Z) :=
  match p with PLong l => [(l, 4)] | PShort l => [(l, 2)] | PFloat l s => [(l, 4); (s, 2)] | PCopy => [] end.
Definition disjoint (a b : Z * Z) : Prop := fst a + snd a <= fst b \/ fst b + snd b <= fst a.
Definition scale_field (p : proto) (a : Z * Z) : Prop := match p with PFloat _ s => a = (s, 2) | _ => False end.
Lemma predefined_range m p : predefined m = Some p -> 0 <= m <= 29.
Proof.
  unfold predefined. intros H.
  repeat match type of H with
  | context [match ?x with _ => _ end] => is_var x; destruct x
  end; try discriminate; lia.
Qed.
Definition disjointb (a b : Z * Z) : bool := (fst a + snd a <=? fst b) || (fst b + snd b <=? fst a).
Definition pair_eqb (a b : Z * Z) : bool := (fst a =? fst b) && (snd a =? snd b).
Definition scale_fieldb (p : proto) (a : Z * Z) : bool := match p with PFloat _ s => pair_eqb a (s, 2) | _ => false end.
Lemma pair_eqb_eq a b : pair_eqb a b = true -> a = b.
Proof. destruct a, b. unfold pair_eqb. cbn. intros. f_equal; lia. Qed.
Lemma predefined_check :
  forallb (fun m1 => forallb (fun m2 =>
    match predefined m1, predefined m2 with
    | Some p1, Some p2 => forallb (fun a => forallb (fun b =>
        (1 <=? fst a) && (fst a + snd a <=? 241) &&
        (disjointb a b
        || (pair_eqb a b && ((m1 =? m2) || (scale_fieldb p1 a && scale_fieldb p2 b)))))
        (proto_fields p2)) (proto_fields p1)
    | _, _ => true
    end) (zrange 30)) (zrange 30) = true.
Proof. vm_compute. reflexivity. Qed.
(** Every field lies within the 240 bytes, and two fields (of the same entry or
    of different ones) are disjoint unless they are the same field of the same
    entry or the same shared scale factor. *)
Theorem C27_fields_disjoint :
  forall m1 m2 p1 p2 a b, predefined m1 = Some p1 -> predefined m2 = Some p2 ->
  In a (proto_fields p1) -> In b (proto_fields p2) ->
  1 <= fst a /\ fst a + snd a <= 241 /\
  (disjoint a b \/ (a = b /\ (m1 = m2 \/ (scale_field p1 a /\ scale_field p2 b)))).
Proof.
  intros m1 m2 p1 p2 a b H1 H2 Ha Hb. pose proof predefined_check as C. rewrite forallb_forall in C.
  specialize (C m1 ltac:(apply in_zrange; pose proof (predefined_range _ _ H1); lia)). rewrite forallb_forall in C.
  specialize (C m2 ltac:(apply in_zrange; pose proof (predefined_range _ _ H2); lia)). rewrite H1, H2 in C.
  rewrite forallb_forall in C. specialize (C a Ha). rewrite forallb_forall in C. specialize (C b Hb).
  apply andb_true_iff in C. destruct C as (C1 & C2). split; [lia|]. split; [lia|].
  apply orb_true_iff in C2. destruct C2 as [C2|C2]; [left; unfold disjointb in C2; unfold disjoint; lia|].
  right. apply andb_true_iff in C2. destruct C2 as (E & C2). split; [apply pair_eqb_eq; exact E|].
  apply orb_true_iff in C2. destruct C2 as [C2|C2]; [left; lia|right].
  apply andb_true_iff in C2. destruct C2 as (S1 & S2). unfold scale_field, scale_fieldb in *.
  split; [destruct p1|destruct p2]; try discriminate; apply pair_eqb_eq; assumption.
Qed.
Print Assumptions C27_fields_disjoint.
Example C27_nonvacuous : predefined 20 = Some (PFloat 73 71) /\ predefined 26 = Some (PLong 189) /\
  In (71, 2) (proto_fields (PFloat 73 71)) /\ length (filter (fun m => match predefined m with Some _ => true | None => false end) (zrange 30)) = 28%nat.
Proof. repeat split. right; left; reflexivity. Qed.
