(** Property C110: a rule owns its entries; C111: rules made from a map. *)
From Coq Require Import Permutation.
From Verif Require Import Base RuleModel RuleProofs OwnModel OwnSpec OwnProofs.

(** The invariant of a program's rules. *)
Definition alike (h : heap) (o : option object) (v : option rule) : Prop :=
  match o, v with Some o, Some r => rep h o r /\ good r | None, None => True | _, _ => False end.
Record inv (os : list (option object)) (h : heap) (vs : list (option rule)) (alive : list bool) : Prop := {
  iv_rep : Forall2 (alike h) os vs;
  iv_alive : map (fun o : option object => match o with Some _ => true | None => false end) os = alive;
  iv_bound : bound h;
  iv_dup : NoDup (owned os);
  iv_all : forall a e, cell h a = Some e -> In a (owned os) }.

Lemma view_rep h o r : rep h o r -> view h o = Some r.
Proof.
  intros [Pc Pm Ps Pe Pb Pf]. unfold view. rewrite (R_read h _ _ Pm). cbn [obind]. destruct r. cbn in *. congruence.
Qed.
Lemma F2len {A B} (P : A -> B -> Prop) l l' : Forall2 P l l' -> length l = length l'.
Proof. induction 1; cbn; congruence. Qed.
Lemma nodup_app (u v : list Z) : NoDup (u ++ v) -> NoDup u /\ NoDup v /\ forall a, In a u -> ~ In a v.
Proof.
  induction u as [|z u IH]; cbn; intros Nd; [split; [constructor|split; [exact Nd|contradiction]]|].
  inversion Nd as [|? ? K1 K2]; subst. destruct (IH K2) as (U & V & W).
  split; [constructor; [intros C; apply K1, in_or_app; auto|exact U]|]. split; [exact V|].
  intros a [<-|C] Cv; [apply K1, in_or_app; auto|exact (W a C Cv)].
Qed.
Lemma owned_app a b : owned (a ++ b) = owned a ++ owned b. Proof. apply flat_map_app. Qed.
Lemma put_split {A} (x y : A) l1 l2 : put (length l1) x (l1 ++ y :: l2) = l1 ++ x :: l2.
Proof. induction l1; cbn; [reflexivity|]. f_equal. exact IHl1. Qed.
Lemma split_at {A} i (l : list A) x : nth_error l i = Some x -> exists l1 l2, l = l1 ++ x :: l2 /\ length l1 = i.
Proof. apply nth_error_split. Qed.
Lemma Forall2_split {A B} (P : A -> B -> Prop) l1 x l2 l' : Forall2 P (l1 ++ x :: l2) l' ->
  exists l1' y l2', l' = l1' ++ y :: l2' /\ length l1' = length l1 /\ Forall2 P l1 l1' /\ P x y /\ Forall2 P l2 l2'.
Proof.
  intros H. apply Forall2_app_inv_l in H. destruct H as (l1' & r & H1 & H2 & ->).
  inversion H2 as [|? y ? l2' Hx H3]; subst. exists l1', y, l2'.
  split; [reflexivity|]. split; [symmetry; exact (F2len _ _ _ H1)|]. auto.
Qed.
Lemma alike_heap h h' os vs : (forall a, In a (owned os) -> cell h' a = cell h a) ->
  Forall2 (alike h) os vs -> Forall2 (alike h') os vs.
Proof.
  intros S H. induction H as [|o v os vs P H IH]; [constructor|]. destruct o as [o|], v as [r|]; cbn in P; try contradiction.
  - destruct P as (P & G). constructor.
    + split; [|exact G]. destruct P as [Pc Pm Ps Pe Pb Pf]. constructor; try assumption. apply (R_heap h); [|exact Pm].
      intros a I. apply S. cbn. apply in_or_app. left. exact I.
    + apply IH. intros a I. apply S. cbn. apply in_or_app. right. exact I.
  - constructor; [exact I|]. apply IH. exact S.
Qed.
Lemma owned_live h os vs a : Forall2 (alike h) os vs -> In a (owned os) -> exists e, cell h a = Some e.
Proof.
  induction 1 as [|o v os vs P H IH]; [contradiction|]. destruct o as [o|], v as [r|]; cbn in *; try contradiction; [|exact IH].
  intros I. apply in_app_or in I. destruct I as [I|I]; [|exact (IH I)]. destruct P as (P & _).
  exact (R_live h _ _ a (rep_map _ _ _ P) I).
Qed.

(** One rule of the program changes, appears or disappears. *)
Lemma inv_update l1 x l2 h v1 v2 y h' x' y' A A' :
  owned [x] = A -> owned [x'] = A' -> length v1 = length l1 ->
  Forall2 (alike h) l1 v1 -> Forall2 (alike h) l2 v2 -> alike h' x' y' ->
  bound h -> NoDup (owned (l1 ++ x :: l2)) -> (forall a e, cell h a = Some e -> In a (owned (l1 ++ x :: l2))) ->
  stepped h A h' A' -> alike h x y ->
  inv (l1 ++ x' :: l2) h' (v1 ++ y' :: v2)
      (map (fun o : option object => match o with Some _ => true | None => false end) (l1 ++ x' :: l2)).
Proof.
  intros EA EA' Ln H1 H2 Hx B N All S Hold.
  assert (Sp : forall z, owned (l1 ++ z :: l2) = owned l1 ++ owned [z] ++ owned l2).
  { intros z. rewrite owned_app. f_equal. change (z :: l2) with ([z] ++ l2). apply owned_app. }
  rewrite Sp, EA in N. 
  assert (N1 : NoDup (owned l1) /\ NoDup (owned l2) /\ (forall a, In a (owned l1) -> ~ In a A /\ ~ In a (owned l2)) /\
    (forall a, In a (owned l2) -> ~ In a A)).
  { clear - N.
    destruct (nodup_app _ _ N) as (U & V & W). destruct (nodup_app _ _ V) as (U' & V' & W'). split; [exact U|]. split; [exact V'|]. split.
    - intros a I. specialize (W a I). split; intros C; apply W, in_or_app; auto.
    - intros a I C. exact (W' a C I). }
  destruct N1 as (U1 & U2 & W1 & W2).
  assert (Other : forall a, In a (owned l1) \/ In a (owned l2) -> ~ In a A /\ ~ In a A' /\ cell h' a = cell h a).
  { intros a I. assert (Na : ~ In a A) by (destruct I as [I|I]; [apply W1, I|apply W2, I]).
    assert (Na' : ~ In a A').
    { intros J. destruct (st_new _ _ _ _ S a J) as [K|K]; [contradiction|].
      assert (L : exists e, cell h a = Some e) by (destruct I as [I|I]; [exact (owned_live h _ _ a H1 I)|exact (owned_live h _ _ a H2 I)]).
      destruct L as (e & C). apply B in C. lia. }
    split; [exact Na|]. split; [exact Na'|]. apply (st_frame _ _ _ _ S); assumption. }
  constructor.
  - apply Forall2_app; [|constructor; [exact Hx|]]; apply (alike_heap h); try assumption; intros a I; apply Other; auto.
  - reflexivity.
  - exact (st_bound _ _ _ _ S).
  - rewrite Sp, EA'. 
    assert (J : forall (u v : list Z), NoDup u -> NoDup v -> (forall a, In a u -> ~ In a v) -> NoDup (u ++ v)).
    { induction u as [|z u IH]; cbn; intros v Nu Nv D; [exact Nv|]. inversion Nu as [|? ? K1 K2]; subst. constructor.
      - intros C. apply in_app_or in C. destruct C as [C|C]; [contradiction|]. exact (D z (or_introl eq_refl) C).
      - apply IH; auto. }
    apply J; [exact U1| |].
    + apply J; [exact (st_dup _ _ _ _ S)|exact U2|]. intros a I I2. destruct (Other a (or_intror I2)) as (_ & K & _). contradiction.
    + intros a I I2. destruct (Other a (or_introl I)) as (_ & K & _). apply in_app_or in I2. destruct I2 as [I2|I2]; [contradiction|].
      destruct (W1 a I) as (_ & K2). contradiction.
  - intros a e C. rewrite Sp, EA'. destruct (in_dec Z.eq_dec a A') as [I|I]; [apply in_or_app; right; apply in_or_app; auto|].
    destruct (in_dec Z.eq_dec a A) as [J|J]; [rewrite (st_gone _ _ _ _ S a J I) in C; discriminate|].
    rewrite (st_frame _ _ _ _ S a J I) in C. apply All in C. rewrite Sp, EA in C.
    apply in_app_or in C. destruct C as [C|C]; [apply in_or_app; auto|]. apply in_app_or in C. destruct C as [C|C]; [contradiction|].
    apply in_or_app. right. apply in_or_app. auto.
Qed.
Lemma inv_more os h vs alive o r h' : inv os h vs alive -> rep h' o r -> good r -> stepped h [] h' (addrs o) ->
  inv (os ++ [Some o]) h' (vs ++ [Some r]) (alive ++ [true]).
Proof.
  intros [Hr Ha Hb Hd Hl] P G S.
  assert (E : alive ++ [true] = map (fun o : option object => match o with Some _ => true | None => false end) (os ++ [Some o])).
  { rewrite map_app, Ha. reflexivity. }
  rewrite E. eapply (inv_update os None [] h vs [] None h' (Some o) (Some r) [] (addrs o)); try reflexivity; try assumption.
  - cbn. apply app_nil_r.
  - symmetry. exact (F2len _ _ _ Hr).
  - constructor.
  - split; assumption.
  - rewrite owned_app. cbn. rewrite app_nil_r. exact Hd.
  - intros a e C. rewrite owned_app. apply in_or_app. left. exact (Hl a e C).
Qed.
Lemma alive_live os alive i :
  map (fun o : option object => match o with Some _ => true | None => false end) os = alive -> nth_error alive i = Some true ->
  exists l1 o l2, os = l1 ++ Some o :: l2 /\ length l1 = i /\ live i os = Some o.
Proof.
  intros <- H. rewrite nth_error_map in H. unfold live. destruct (nth_error os i) as [[o|]|] eqn:E; cbn in H; try discriminate.
  destruct (split_at i os _ E) as (l1 & l2 & -> & L). exists l1, o, l2. auto.
Qed.
Lemma alive_put l1 (o o' : object) l2 :
  map (fun o : option object => match o with Some _ => true | None => false end) (l1 ++ Some o' :: l2) =
  map (fun o : option object => match o with Some _ => true | None => false end) (l1 ++ Some o :: l2).
Proof. rewrite !map_app. reflexivity. Qed.

Lemma inv_change l1 o l2 h vs alive (f : object -> heap -> option (object * heap)) (g : rule -> rule) :
  inv (l1 ++ Some o :: l2) h vs alive ->
  (forall r, nth_error vs (length l1) = Some (Some r) -> rep h o r -> NoDup (addrs o) -> good r -> does f g h o r /\ good (g r)) ->
  exists o' h' r, f o h = Some (o', h') /\ nth_error vs (length l1) = Some (Some r) /\
  inv (put (length l1) (Some o') (l1 ++ Some o :: l2)) h' (put (length l1) (Some (g r)) vs) alive.
Proof.
  intros [Hr Ha Hb Hd Hl] D. destruct (Forall2_split _ _ _ _ _ Hr) as (v1 & y & v2 & -> & Ln & H1 & Hy & H2).
  destruct y as [r|]; [|contradiction Hy]. destruct Hy as (P & G).
  assert (Nth : nth_error (v1 ++ Some r :: v2) (length l1) = Some (Some r)).
  { rewrite <- Ln. rewrite nth_error_app2 by lia. rewrite Nat.sub_diag. reflexivity. }
  assert (N : NoDup (addrs o)).
  { rewrite owned_app in Hd. cbn in Hd. clear - Hd. apply nodup_app in Hd. destruct Hd as (_ & Hd & _). apply nodup_app in Hd. apply Hd. }
  destruct (D r Nth P N G) as ((o' & h' & E & P' & S) & G'). exists o', h', r. split; [exact E|]. split; [exact Nth|].
  rewrite put_split. rewrite <- Ln. rewrite put_split. rewrite <- Ha, <- (alive_put l1 o o' l2).
  eapply (inv_update l1 (Some o) l2 h v1 v2 (Some r) h' (Some o') (Some (g r)) (addrs o) (addrs o')); try assumption.
  - cbn. apply app_nil_r.
  - cbn. apply app_nil_r.
  - split; assumption.
  - split; assumption.
Qed.

Lemma step_inv c cs os h vs alive : inv os h vs alive -> legal alive (c :: cs) ->
  exists os' h' alive', step (os, h) c = Some (os', h') /\ inv os' h' (value vs c) alive' /\ legal alive' cs.
Proof.
  intros V Lg. destruct c as [ms full d x|l full|i c|i j|i|i]; cbn [legal] in Lg; cbn [step value].
  - destruct (own_new_spec ms full d x h (iv_bound _ _ _ _ V)) as (o & h' & E & P & S). rewrite E. cbn [obind fst snd].
    eexists. exists h', (alive ++ [true]). split; [reflexivity|]. split; [|exact Lg].
    apply (inv_more os h vs alive); try assumption. apply newRule_good.
  - destruct Lg as (Nm & Nb & Lg). destruct (alloc_all l h) as [ps h1] eqn:E1.
    destruct (own_map_spec l full h ps h1 (iv_bound _ _ _ _ V) E1) as (o & h' & E & P & S). rewrite E. cbn [obind fst snd].
    eexists. exists h', (alive ++ [true]). split; [reflexivity|]. split; [|exact Lg].
    apply (inv_more os h vs alive); try assumption. apply map_good; assumption.
  - destruct Lg as (Al & Pr & Lg). destruct (alive_live os alive i (iv_alive _ _ _ _ V) Al) as (l1 & o & l2 & -> & L & Lv).
    rewrite Lv. cbn [obind]. subst i.
    destruct (inv_change l1 o l2 h vs alive (own_op c) (fun r => run_op r c) V) as (o' & h' & r & E & Nth & V').
    + intros r _ P N G. split; [apply does_op; [exact P|exact (iv_bound _ _ _ _ V)|exact N|exact G]|].
      apply run_op_good; [exact G|]. destruct c; exact Pr.
    + rewrite E, Nth. cbn [obind fst snd]. eexists. exists h', alive. split; [reflexivity|]. split; [exact V'|exact Lg].
  - destruct Lg as (Al & Al2 & Lg). destruct (alive_live os alive j (iv_alive _ _ _ _ V) Al2) as (k1 & o2 & k2 & Eos & Lj & Lv2).
    destruct (alive_live os alive i (iv_alive _ _ _ _ V) Al) as (l1 & o & l2 & -> & L & Lv).
    rewrite Lv, Lv2. cbn [obind]. subst i.
    assert (Vj : exists r2, nth_error vs j = Some (Some r2) /\ rep h o2 r2 /\ good r2).
    { pose proof (iv_rep _ _ _ _ V) as Hr. rewrite Eos in Hr. destruct (Forall2_split _ _ _ _ _ Hr) as (v1 & y & v2 & -> & Ln & _ & Hy & _).
      destruct y as [r2|]; [|contradiction Hy]. exists r2. split; [|exact Hy]. rewrite <- Lj, <- Ln.
      rewrite nth_error_app2 by lia. rewrite Nat.sub_diag. reflexivity. }
    destruct Vj as (r2 & Nj & P2 & G2). rewrite Nj.
    destruct (inv_change l1 o l2 h vs alive (own_all own_from (o_map o2)) (addRules r2) V) as (o' & h' & r & E & Nth & V').
    + intros r Nr P N G. split; [|apply addRules_good; assumption].
      destruct (Nat.eq_dec j (length l1)) as [Ej|Ej].
      * (* the rule itself *)
        assert (Eo : o2 = o).
        { unfold live in Lv, Lv2. rewrite Ej in Lv2. rewrite Lv in Lv2. congruence. }
        assert (Er : r2 = r) by (rewrite Ej, Nr in Nj; congruence).
        subst o2 r2. exists o, h. split; [apply own_self|]. rewrite addRules_self. split; [exact P|].
        apply stepped_refl; [exact (iv_bound _ _ _ _ V)|exact N].
      * unfold addRules. apply own_others; try assumption.
        -- exact (rep_map _ _ _ P2).
        -- (* the entries of another rule are not this one's *)
           intros a I J. pose proof (iv_dup _ _ _ _ V) as Nd.
           assert (Two : forall (p q : list (option object)) (u v : object), In (Some u) p \/ In (Some u) q ->
             In a (map snd (o_map u)) -> In a (map snd (o_map v)) -> NoDup (owned (p ++ Some v :: q)) -> False).
           { clear. intros p q u v Hu Iu Iv N. rewrite owned_app in N. cbn in N.
             assert (Inn : forall s, In (Some u) s -> In a (owned s)).
             { intros s Is. apply in_flat_map. exists (Some u). auto. }
             destruct Hu as [Hu|Hu].
             - destruct (nodup_app _ _ N) as (_ & _ & D). apply (D a); [apply Inn, Hu|]. apply in_or_app. left. exact Iv.
             - destruct (nodup_app _ _ N) as (_ & N2 & _). destruct (nodup_app _ _ N2) as (_ & _ & D). apply (D a); [exact Iv|]. apply (Inn q), Hu. }
           apply (Two l1 l2 o2 o); [|exact I|exact J|exact Nd].
           unfold live in Lv2. destruct (nth_error (l1 ++ Some o :: l2) j) as [[o2'|]|] eqn:Ex; try discriminate. injection Lv2 as ->.
           destruct (Nat.lt_ge_cases j (length l1)) as [C|C].
           ++ left. rewrite nth_error_app1 in Ex by exact C. apply nth_error_In in Ex. exact Ex.
           ++ right. rewrite nth_error_app2 in Ex by exact C. destruct (j - length l1)%nat as [|q] eqn:Eq; [lia|].
              cbn in Ex. apply nth_error_In in Ex. exact Ex.
        -- destruct G2 as (_ & _ & Co). exact Co.
        -- exact (iv_bound _ _ _ _ V).
    + rewrite E, Nth. cbn [obind fst snd]. eexists. exists h', alive. split; [reflexivity|]. split; [exact V'|exact Lg].
  - destruct Lg as (Al & Lg). destruct (alive_live os alive i (iv_alive _ _ _ _ V) Al) as (l1 & o & l2 & -> & L & Lv).
    rewrite Lv. cbn [obind]. subst i. destruct V as [Hr Ha Hb Hd Hl].
    destruct (Forall2_split _ _ _ _ _ Hr) as (v1 & y & v2 & -> & Ln & H1 & Hy & H2).
    destruct y as [r|]; [|contradiction Hy]. destruct Hy as (P & G).
    assert (N : NoDup (map snd (o_map o))).
    { rewrite owned_app in Hd. cbn in Hd. clear - Hd. apply nodup_app in Hd. destruct Hd as (_ & Hd & _). apply nodup_app in Hd. apply Hd. }
    destruct (own_delete_spec _ h _ (rep_map _ _ _ P) N Hb) as (h' & E & S). rewrite E. cbn [obind].
    rewrite put_split. eexists. exists h'. exists (put (length l1) false alive). split; [reflexivity|]. split; [|exact Lg].
    rewrite <- Ln. rewrite put_split.
    assert (Ea : put (length v1) false alive = map (fun o : option object => match o with Some _ => true | None => false end) (l1 ++ None :: l2)).
    { rewrite <- Ha, !map_app. cbn [map]. rewrite Ln.
      replace (length l1) with (length (map (fun o : option object => match o with Some _ => true | None => false end) l1)) by apply map_length.
      apply put_split. }
    rewrite Ea. eapply (inv_update l1 (Some o) l2 h v1 v2 (Some r) h' None None (addrs o) []); try assumption; try reflexivity.
    + cbn. apply app_nil_r.
    + split; assumption.
  - contradiction.
Qed.
Lemma steps_inv cs : forall os h vs alive, inv os h vs alive -> legal alive cs ->
  exists os' h' alive', steps (os, h) cs = Some (os', h') /\ inv os' h' (fold_left value cs vs) alive'.
Proof.
  induction cs as [|c cs IH]; intros os h vs alive V L.
  - exists os, h, alive. split; [reflexivity|exact V].
  - destruct (step_inv c cs os h vs alive V L) as (os1 & h1 & a1 & E & V1 & L1). cbn [steps fold_left]. rewrite E. cbn [obind].
    exact (IH os1 h1 _ a1 V1 L1).
Qed.
Lemma run_inv cs : legal [] cs -> exists os h alive, run cs = Some (os, h) /\ inv os h (values cs) alive.
Proof.
  intros L. apply (steps_inv cs [] no_heap [] []); [|exact L]. constructor; try (constructor; fail); try reflexivity; discriminate.
Qed.

(** C110: in every program that keeps to the interface and copies no rule, no
    entry is used or freed after it was freed, every allocated entry belongs to
    exactly one rule, *)
Theorem C110_owned :
  forall cs, legal [] cs ->
  exists os h, run cs = Some (os, h) /\ NoDup (owned os) /\ forall a, allocated h a <-> In a (owned os).
Proof.
  intros cs L. destruct (run_inv cs L) as (os & h & al & E & V). exists os, h. split; [exact E|]. split; [exact (iv_dup _ _ _ _ V)|].
  intros a. split; [intros (e & C); exact (iv_all _ _ _ _ V a e C)|]. intros I. exact (owned_live h _ _ a (iv_rep _ _ _ _ V) I).
Qed.
Print Assumptions C110_owned.
(** when all its rules are destroyed nothing is left allocated, *)
Theorem C110_no_leak :
  forall cs os h, legal [] cs -> run cs = Some (os, h) -> (forall o, In o os -> o = None) -> forall a, ~ allocated h a.
Proof.
  intros cs os h L E D a A. destruct (C110_owned cs L) as (os' & h' & E' & _ & Iff). rewrite E in E'. injection E' as <- <-.
  apply Iff in A. apply in_flat_map in A. destruct A as (o & I & J). rewrite (D o I) in J. exact J.
Qed.
Print Assumptions C110_no_leak.
(** and the rules are what they would be if each were a value of its own: a
    call on one rule changes no other. *)
Theorem C110_values :
  forall cs, legal [] cs -> exists os h, run cs = Some (os, h) /\ Forall2 (same h) os (values cs).
Proof.
  intros cs L. destruct (run_inv cs L) as (os & h & al & E & V). exists os, h. split; [exact E|].
  pose proof (iv_rep _ _ _ _ V) as H. clear - H. induction H as [|o v os vs P H IH]; [constructor|]. destruct o as [o|], v as [r|]; cbn in P; try contradiction; constructor; auto.
  - exists r. split; [reflexivity|]. apply view_rep, P.
  - reflexivity.
Qed.
Print Assumptions C110_values.
Definition some_program : list call :=
  [New [26; 27] false false false; Change 0 (OLong 31 9); FromMap [(40, mkEntry MShort 1 5 0); (41, mkEntry MShort 0 7 0)] true;
   AddAll 1 0; Change 0 (ORm 26); Change 1 (ORm 41); Destroy 0; Change 1 OCopy; AddAll 1 1].
Example C110_nonvacuous :
  legal [] some_program /\
  (exists r, nth_error (values some_program) 1 = Some (Some r) /\ map fst (translate r) = [0; 2; 1; 26; 27; 31; 40] /\
     option_map e_num (lookup 40 (translate r)) = Some 0) /\
  (exists os h, run some_program = Some (os, h) /\ length (owned os) = 7%nat) /\
  exists os h, run (some_program ++ [Destroy 1]) = Some (os, h) /\ forall o, In o os -> o = None.
Proof.
  split.
  { unfold some_program. cbn [legal]. repeat split; try reflexivity; try discriminate; try exact I.
    - repeat constructor; cbn; intuition congruence.
    - intros E. destruct H as [H|[H|[]]]; injection H as <- <-; discriminate E.
    - intros E. destruct H as [H|[H|[]]]; injection H as <- <-; discriminate E.
    - intros t. destruct t; constructor. }
  split; [eexists; split; [reflexivity|split; reflexivity]|].
  split; [eexists; eexists; split; [vm_compute; reflexivity|reflexivity]|].
  eexists. eexists. split; [vm_compute; reflexivity|]. intros o [<-|[<-|[]]]; reflexivity.
Qed.

(** But a rule can be copied, and the copy shares the entries: whatever the
    program did before, destroying a rule that has entries and then its copy is
    undefined. *)
Lemma delete_twice L h h' : own_delete L h = Some h' -> forall a, In a (map snd L) -> cell h' a = None.
Proof.
  revert h. induction L as [|[m b] L IH]; intros h E a I; [contradiction|]. cbn [own_delete] in E. unfold free in E.
  destruct (cell h b) eqn:C; [|discriminate]. cbn [obind] in E. 
  assert (Z : forall L h h', own_delete L h = Some h' -> cell h b = None -> cell h' b = None).
  { clear. induction L as [|[m c] L IH]; intros h h' E N; cbn [own_delete] in E; [injection E as <-; exact N|].
    unfold free in E. destruct (cell h c) eqn:C; [|discriminate]. cbn [obind] in E. apply (IH _ _ E). cbn. destruct (b =? c); [reflexivity|exact N]. }
  destruct I as [<-|I]; [|exact (IH _ E a I)]. cbn [snd]. apply (Z _ _ _ E). cbn. rewrite Z.eqb_refl. reflexivity.
Qed.
Theorem C110_copy_refuted :
  forall os h i o, live i os = Some o -> o_map o <> [] ->
  steps (os, h) [Copy i; Destroy i; Destroy (length os)] = None.
Proof.
  intros os h i o L Ne. cbn [steps step]. rewrite L. cbn [obind].
  assert (Lt : (i < length os)%nat).
  { unfold live in L. apply nth_error_Some. destruct (nth_error os i); [discriminate|congruence]. }
  assert (L1 : live i (os ++ [Some o]) = Some o) by (unfold live in *; rewrite nth_error_app1 by exact Lt; exact L).
  cbn [steps step]. rewrite L1. cbn [obind]. destruct (own_delete (o_map o) h) as [h1|] eqn:D; [|reflexivity]. cbn [obind].
  assert (L2 : live (length os) (put i None (os ++ [Some o])) = Some o).
  { clear - Lt. unfold live. revert i Lt. induction os as [|x os IH]; intros i Lt; [cbn in Lt; lia|]. destruct i as [|i]; cbn.
    - rewrite nth_error_app2 by lia. rewrite Nat.sub_diag. reflexivity.
    - apply IH. cbn in Lt. lia. }
  cbn [steps step]. rewrite L2. cbn [obind]. pose proof (delete_twice _ _ _ D) as T. destruct (o_map o) as [|[m a] l]; [contradiction|].
  cbn [own_delete]. unfold free. rewrite (T a (or_introl eq_refl)). reflexivity.
Qed.
Print Assumptions C110_copy_refuted.
(** A rule that is only read is not safe either once its copy changed. *)
Theorem C110_stale_copy_refuted :
  run [New [26] false false false; Copy 0; Change 0 (OLong 31 9)] <> None /\
  run [New [26] false false false; Copy 0; Change 0 (ORm 26); Change 1 (ORm 2)] = None /\
  exists os h v, run [New [26] false false false; Copy 0; Change 0 (ORm 2)] = Some (os, h) /\
    nth_error os 1 = Some (Some v) /\ view h v = None.
Proof.
  split; [vm_compute; discriminate|]. split; [vm_compute; reflexivity|].
  eexists. eexists. eexists. split; [vm_compute; reflexivity|]. split; reflexivity.
Qed.
Print Assumptions C110_stale_copy_refuted.
(** An entry named COPY that is not the copy entry is lost when the copy entry is added. *)
Theorem C110_copy_name_refuted :
  exists os h a, run [New [] true false false; Change 0 (OLong META_COPY 9); Change 0 OCopy; Destroy 0] = Some (os, h) /\
  (forall o, In o os -> o = None) /\ allocated h a.
Proof.
  eexists. eexists. exists 2. split; [vm_compute; reflexivity|]. split; [intros o [<-|[]]; reflexivity|].
  eexists. reflexivity.
Qed.
Print Assumptions C110_copy_name_refuted.

(** C111: a rule made from a map holds the entries of the map, counts them by
    type and gives each its own slot of its type's array, through every later
    history of calls, exactly when the numbers of each type are 0, 1, 2, ... *)
Lemma extent_keeps r : translate (snd (extent r)) = translate r /\ counts (snd (extent r)) = counts r.
Proof. unfold extent. destruct (r_full r); [split; reflexivity|]. destruct (r_bad r); split; reflexivity. Qed.
Lemma mapRule_keeps l full : translate (mapRule l full) = l /\ forall t, counts (mapRule l full) t = count t l.
Proof.
  unfold mapRule. destruct full; [split; reflexivity|]. destruct (extent_keeps (mkRule (fun t => count t l) l 0 0 true false)) as (A & B).
  rewrite A, B. split; reflexivity.
Qed.
Definition own_slot (r : rule) : Prop :=
  (forall m e, lookup m (translate r) = Some e -> 0 <= e_num e < counts r (e_type e)) /\
  (forall m m' e e', lookup m (translate r) = Some e -> lookup m' (translate r) = Some e' -> m <> m' -> e_type e = e_type e' ->
     e_num e <> e_num e').
Lemma nums_slots l t : NoDup (map fst l) -> own_slot (mkRule (fun t => count t l) l 0 0 false true) ->
  NoDup (numbers t l) /\ forall x, In x (numbers t l) -> 0 <= x < count t l.
Proof.
  intros K (Rg & Di). cbn [translate counts] in *. split.
  - unfold numbers. 
    assert (H : forall s, NoDup (map fst s) -> (forall x, In x s -> In x l) ->
      NoDup (map (fun x => e_num (snd x)) (filter (fun x => mdtype_eqb (e_type (snd x)) t) s))).
    { induction s as [|[m e] s IH]; intros Ks Is; [constructor|]. cbn in Ks. inversion Ks as [|? ? K1 K2]; subst. cbn [filter snd].
      destruct (mdtype_eqb_spec (e_type e) t) as [Et|]; [|apply IH; [exact K2|intros x I; apply Is; right; exact I]].
      cbn [map]. constructor; [|apply IH; [exact K2|intros x I; apply Is; right; exact I]].
      intros C. apply in_map_iff in C. destruct C as ([m' e'] & En & C). apply filter_In in C. destruct C as (C & T').
      cbn [snd] in *. destruct (mdtype_eqb_spec (e_type e') t) as [Et'|]; [|discriminate].
      apply (Di m m' e e').
      - apply in_lookup; [exact K|apply Is; left; reflexivity].
      - apply in_lookup; [exact K|apply Is; right; exact C].
      - intros ->. apply K1. apply (in_map fst) in C. exact C.
      - congruence.
      - congruence. }
    apply H; auto.
  - intros x I. unfold numbers in I. apply in_map_iff in I. destruct I as ([m e] & <- & I). apply filter_In in I. destruct I as (I & T).
    cbn [snd] in *. destruct (mdtype_eqb_spec (e_type e) t) as [<-|]; [|discriminate]. apply (Rg m). apply in_lookup; assumption.
Qed.
Theorem C111_from_map :
  forall l full, named l ->
  translate (mapRule l full) = l /\
  (own_slot (mapRule l full) <-> numbered l) /\
  (numbered l -> forall cs, (forall c, In c cs -> proper c) -> own_slot (fold_left run_op cs (mapRule l full))).
Proof.
  intros l full Nm. destruct (mapRule_keeps l full) as (Tr & Co). split; [exact Tr|].
  assert (Slots : forall r, good r -> own_slot r).
  { intros r G. split.
    - intros m e Lk. exact (slots_range r m e G Lk).
    - intros m m' e e' L L' Ne Et En. exact (slots_distinct r m m' e e' G L L' Ne Et En). }
  split; [split|].
  - intros (Rg & Di). rewrite Tr in Rg, Di. intros t. destruct (nums_slots l t) as (Nd & Bd).
    + apply Nm.
    + split; cbn [translate counts]; [|exact Di]. intros m e Lk. rewrite <- Co. exact (Rg m e Lk).
    + apply NoDup_Permutation_bis.
      * exact Nd.
      * unfold zrange. rewrite map_length, seq_length. lia.
      * intros x I. apply in_zrange. pose proof (Bd x I) as C. unfold count in C. unfold numbers. rewrite map_length. exact C.
  - intros D. apply Slots, map_good; assumption.
  - intros D cs P. apply Slots. pose proof (map_good l full Nm D) as G. revert G P. generalize (mapRule l full). clear.
    induction cs as [|c cs IH]; intros r G P; [exact G|]. cbn [fold_left]. apply IH; [|intros c' I; apply P; right; exact I].
    apply run_op_good; [exact G|]. specialize (P c (or_introl eq_refl)). destruct c; exact P.
Qed.
Print Assumptions C111_from_map.
Example C111_nonvacuous :
  let l := [(40, mkEntry MShort 1 5 0); (26, mkEntry MLong 0 189 0); (41, mkEntry MShort 0 7 0)] in
  named l /\ numbered l /\ counts (mapRule l false) MShort = 2 /\
  r_start (mapRule l false) = 5 /\ r_end (mapRule l false) = 193 /\
  option_map e_num (lookup 40 (translate (fold_left run_op [ORm 41; OShort 42 11] (mapRule l false)))) = Some 0.
Proof.
  cbv zeta. split.
  { split; [repeat constructor; cbn; intuition congruence|]. intros m e [H|[H|[H|[]]]]; injection H as <- <-; split; discriminate. }
  split; [intros t; destruct t; try (apply Permutation_refl); cbn; apply perm_swap|].
  repeat split; reflexivity.
Qed.
(** The constructor does not number the entries itself: with the same number
    given twice, setting one value sets the other. *)
Theorem C111_numbers_refuted :
  exists l, named l /\ ~ own_slot (mapRule l true).
Proof.
  exists [(26, mkEntry MLong 0 189 0); (27, mkEntry MLong 0 193 0)]. split.
  - split; [repeat constructor; cbn; intuition congruence|]. intros m e [H|[H|[]]]; injection H as <- <-; split; discriminate.
  - intros (_ & D). apply (D 26 27 (mkEntry MLong 0 189 0) (mkEntry MLong 0 193 0)); try reflexivity; discriminate.
Qed.
Print Assumptions C111_numbers_refuted.
