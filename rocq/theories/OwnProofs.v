From Coq Require Import Permutation.
From Verif Require Import Base RuleModel RuleProofs OwnModel OwnSpec.

Definition addrs (o : object) : list Z := map snd (o_map o).
Definition R (h : heap) (x : Z * Z) (y : Z * entry) : Prop := fst x = fst y /\ cell h (snd x) = Some (snd y).
Definition bound (h : heap) : Prop := forall a e, cell h a = Some e -> a < fresh h.
Record rep (h : heap) (o : object) (r : rule) : Prop := {
  rep_counts : o_counts o = counts r; rep_map : Forall2 (R h) (o_map o) (translate r);
  rep_start : o_start o = r_start r; rep_end : o_end o = r_end r; rep_bad : o_bad o = r_bad r; rep_full : o_full o = r_full r }.
Record stepped (h : heap) (A : list Z) (h' : heap) (A' : list Z) : Prop := {
  st_fresh : fresh h <= fresh h';
  st_bound0 : bound h;
  st_bound : bound h';
  st_frame : forall a, ~ In a A -> ~ In a A' -> cell h' a = cell h a;
  st_new : forall a, In a A' -> In a A \/ fresh h <= a;
  st_dup : NoDup A';
  st_gone : forall a, In a A -> ~ In a A' -> cell h' a = None }.

Lemma stepped_refl h A : bound h -> NoDup A -> stepped h A h A.
Proof. intros B N. constructor; auto; try lia. intros a I J. contradiction. Qed.
Lemma stepped_trans h A h1 A1 h2 A2 : stepped h A h1 A1 -> stepped h1 A1 h2 A2 -> stepped h A h2 A2.
Proof.
  intros [F B0 B1 Fr Nw Du Go] [F' B0' B2 Fr' Nw' Du' Go']. constructor; try assumption.
  - lia.
  - intros a N N2. destruct (in_dec Z.eq_dec a A1) as [I|I].
    + rewrite (Go' a I N2). destruct (Nw a I) as [J|J]; [contradiction|].
      destruct (cell h a) eqn:E; [|reflexivity]. apply B0 in E. lia.
    + rewrite (Fr' a I N2). apply Fr; assumption.
  - intros a I. destruct (Nw' a I) as [J|J]; [|right; lia]. apply Nw, J.
  - intros a I N2. destruct (in_dec Z.eq_dec a A1) as [J|J]; [apply Go'; assumption|].
    rewrite (Fr' a J N2). apply Go; assumption.
Qed.

Lemma R_find h L l m : Forall2 (R h) L l ->
  match pfind m L with
  | Some a => exists e, lookup m l = Some e /\ cell h a = Some e /\ In (m, a) L
  | None => lookup m l = None
  end.
Proof.
  induction 1 as [|[k a] [k' e] L l (E & C) H IH]; cbn in *; [reflexivity|]. subst k'. destruct (k =? m) eqn:Ek.
  - exists e. split; [reflexivity|]. split; [exact C|]. left. f_equal. lia.
  - destruct (pfind m L); [|exact IH]. destruct IH as (e' & A & B & I). exists e'. auto.
Qed.
Lemma R_erase h L l m : Forall2 (R h) L l -> Forall2 (R h) (perase m L) (erase m l).
Proof.
  induction 1 as [|[k a] [k' e] L l (E & C) H IH]; cbn in *; [constructor|]. subst k'.
  destruct (k =? m); cbn; [exact IH|]. constructor; [split; [reflexivity|exact C]|exact IH].
Qed.
Lemma R_heap h h' L l : (forall a, In a (map snd L) -> cell h' a = cell h a) -> Forall2 (R h) L l -> Forall2 (R h') L l.
Proof.
  intros S H. induction H as [|[k a] [k' e] L l (E & C) H IH]; [constructor|]. cbn in S. constructor.
  - split; [exact E|]. cbn in *. rewrite S by auto. exact C.
  - apply IH. intros b I. apply S. auto.
Qed.
Lemma R_live h L l a : Forall2 (R h) L l -> In a (map snd L) -> exists e, cell h a = Some e.
Proof.
  induction 1 as [|[k b] [k' e] L l (E & C) H IH]; cbn in *; [tauto|]. intros [<-|I]; [eauto|apply IH, I].
Qed.
Lemma perase_in m L a : In a (map snd (perase m L)) -> In a (map snd L).
Proof. rewrite !in_map_iff. intros (x & E & I). apply filter_In in I. exists x. tauto. Qed.
Lemma perase_dup m L : NoDup (map snd L) -> NoDup (map snd (perase m L)).
Proof.
  induction L as [|[k a] L IH]; cbn; [auto|]. intros N. inversion N as [|x l N1 N2]; subst. destruct (k =? m); cbn; [auto|].
  constructor; [|auto]. intros I. apply N1. apply (perase_in m L). exact I.
Qed.
Lemma perase_gone m a L : NoDup (map snd L) -> In (m, a) L -> ~ In a (map snd (perase m L)).
Proof.
  induction L as [|[k b] L IH]; cbn; [tauto|]. intros N [E|I] J; inversion N as [|x l N1 N2]; subst.
  - injection E as -> ->. rewrite Z.eqb_refl in J. cbn in J. apply N1. apply (perase_in m L). exact J.
  - destruct (k =? m) eqn:E; cbn in J; [exact (IH N2 I J)|]. destruct J as [->|J]; [|exact (IH N2 I J)].
    apply N1. apply (in_map snd) in I. exact I.
Qed.
Lemma R_keys h L l : Forall2 (R h) L l -> map fst L = map fst l.
Proof. induction 1 as [|x y L l (E & C) H IH]; cbn; [reflexivity|]. rewrite E, IH. reflexivity. Qed.
Lemma perase_same m a L : NoDup (map fst L) -> NoDup (map snd L) -> In (m, a) L ->
  forall b, In b (map snd L) -> b <> a -> In b (map snd (perase m L)).
Proof.
  intros K N I b J Ne. apply in_map_iff in J. destruct J as ([k b'] & E & J). cbn in E. subst b'.
  apply in_map_iff. exists (k, b). split; [reflexivity|]. apply filter_In. split; [exact J|]. cbn.
  destruct (Z.eqb_spec k m) as [->|]; [|reflexivity]. exfalso. apply Ne. clear - K I J.
  induction L as [|[k c] L IH]; [contradiction I|]. cbn in K. inversion K as [|x l K1 K2]; subst. cbn in I, J.
  destruct I as [I|I], J as [J|J].
  - congruence.
  - injection I as -> ->. exfalso. apply K1. apply (in_map fst) in J. exact J.
  - injection J as -> ->. exfalso. apply K1. apply (in_map fst) in I. exact I.
  - auto.
Qed.

Definition ren (t : mdtype) (k : Z) (e : entry) : entry :=
  if mdtype_eqb (e_type e) t && (k <? e_num e) then mkEntry (e_type e) (e_num e - 1) (e_loc e) (e_scal e) else e.
Lemma renumber_spec t k L : forall l h, Forall2 (R h) L l -> NoDup (map snd L) -> bound h ->
  exists h', renumber t k L h = Some h' /\ Forall2 (R h') L (map (fun x => (fst x, ren t k (snd x))) l) /\
  fresh h' = fresh h /\ bound h' /\ (forall a, ~ In a (map snd L) -> cell h' a = cell h a).
Proof.
  induction L as [|[m a] L IH]; intros l h H N B; inversion H as [|x [m' e] L' l' (E & C) H']; subst.
  - exists h. cbn. repeat split; auto.
  - cbn in E, C, N. subst m'. inversion N as [|x l2 N1 N2]; subst. cbn [renumber]. rewrite C. cbn [obind].
    destruct (mdtype_eqb (e_type e) t && (k <? e_num e)) eqn:G.
    + unfold store. rewrite C. cbn [obind].
      set (h1 := mkHeap (fun b => if b =? a then Some (mkEntry (e_type e) (e_num e - 1) (e_loc e) (e_scal e)) else cell h b) (fresh h)).
      destruct (IH l' h1) as (h' & E & F & Fr & B' & S).
      * apply (R_heap h); [|exact H']. intros b I. subst h1. cbn. destruct (Z.eqb_spec b a) as [->|]; [contradiction|reflexivity].
      * exact N2.
      * intros b x. subst h1. cbn. destruct (Z.eqb_spec b a) as [->|]; [intros _; apply (B a e C)|apply B].
      * exists h'. split; [exact E|]. split; [|split; [exact Fr|split; [exact B'|]]].
        -- cbn [map]. constructor; [|exact F]. split; [reflexivity|]. cbn. rewrite (S a N1). subst h1. cbn. rewrite Z.eqb_refl.
           unfold ren. rewrite G. reflexivity.
        -- intros b Nb. cbn in Nb. rewrite S by tauto. subst h1. cbn. destruct (Z.eqb_spec b a) as [->|]; [tauto|reflexivity].
    + destruct (IH l' h H' N2 B) as (h' & E & F & Fr & B' & S). exists h'. split; [exact E|].
      split; [|split; [exact Fr|split; [exact B'|]]].
      * cbn [map]. constructor; [|exact F]. split; [reflexivity|]. cbn. rewrite (S a N1), C. unfold ren. rewrite G. reflexivity.
      * intros b Nb. cbn in Nb. apply S. tauto.
Qed.

(** an operation on one rule is what RuleModel says, and touches no other entry *)
Definition does (f : object -> heap -> option (object * heap)) (g : rule -> rule) (h : heap) (o : object) (r : rule) : Prop :=
  exists o' h', f o h = Some (o', h') /\ rep h' o' (g r) /\ stepped h (addrs o) h' (addrs o').

Section Ops.
Context (h : heap) (o : object) (r : rule).
Context (P : rep h o r) (B : bound h) (N : NoDup (addrs o)) (G : good r).

Lemma does_nothing g : g r = r -> does (fun o h => Some (o, h)) g h o r.
Proof. intros E. exists o, h. rewrite E. split; [reflexivity|]. split; [exact P|]. apply stepped_refl; [exact B|exact N]. Qed.

Lemma does_rm m : does (own_rm m) (rmRule m) h o r.
Proof.
  unfold does, own_rm. pose proof (R_find h _ _ m (rep_map _ _ _ P)) as F. destruct (pfind m (o_map o)) as [a|].
  2:{ exists o, h. unfold rmRule. rewrite F. split; [reflexivity|]. split; [exact P|]. apply stepped_refl; [exact B|exact N]. }
  destruct F as (e & Lk & C & I). rewrite C. cbn [obind]. unfold free. rewrite C. cbn [obind].
  set (h1 := mkHeap (fun b => if b =? a then None else cell h b) (fresh h)).
  assert (H1 : Forall2 (R h1) (perase m (o_map o)) (erase m (translate r))).
  { apply (R_heap h); [|apply R_erase, (rep_map _ _ _ P)]. intros b J. subst h1. cbn.
    destruct (Z.eqb_spec b a) as [->|]; [|reflexivity]. exfalso. exact (perase_gone m a _ N I J). }
  assert (B1 : bound h1).
  { intros b x. subst h1. cbn. destruct (b =? a); [discriminate|apply B]. }
  destruct (renumber_spec (e_type e) (e_num e) (perase m (o_map o)) _ h1 H1 (perase_dup m _ N) B1) as (h' & E & F & Fr & B' & S).
  rewrite E. cbn [obind]. eexists. exists h'. split; [reflexivity|]. unfold rmRule. rewrite Lk. split.
  - destruct P as [Pc Pm Ps Pe Pb Pf]. constructor; cbn; try congruence. exact F.
  - unfold addrs. cbn [o_map]. constructor; try assumption.
    + rewrite Fr. cbn. lia.
    + intros b Nb Nb'. rewrite S by exact Nb'. subst h1. cbn. destruct (Z.eqb_spec b a) as [->|]; [|reflexivity].
      exfalso. apply Nb. apply (in_map snd) in I. exact I.
    + intros b J. left. exact (perase_in m _ b J).
    + apply perase_dup, N.
    + intros b J J'. rewrite S by exact J'. subst h1. cbn. destruct (Z.eqb_spec b a) as [->|Ne]; [reflexivity|].
      exfalso. apply J'. apply (perase_same m a); try assumption.
      rewrite (R_keys h _ _ (rep_map _ _ _ P)). apply G.
Qed.
End Ops.

Lemma does_insert h o r m e c b : rep h o r -> bound h -> NoDup (addrs o) -> lookup m (translate r) = None ->
  exists o' h', Some (mkObject c ((m, fresh h) :: perase m (o_map o)) (o_start o) (o_end o) b (o_full o), alloc e h) = Some (o', h') /\
  rep h' o' (mkRule c (assign m e (translate r)) (r_start r) (r_end r) b (r_full r)) /\ stepped h (addrs o) h' (addrs o').
Proof.
  intros P B N L. eexists. eexists. split; [reflexivity|].
  assert (Nf : ~ In (fresh h) (map snd (o_map o))).
  { intros I. destruct (R_live h _ _ _ (rep_map _ _ _ P) I) as (x & C). apply B in C. lia. }
  split.
  - destruct P as [Pc Pm Ps Pe Pb Pf]. constructor; cbn; try congruence. unfold assign. constructor.
    + split; [reflexivity|]. cbn. rewrite Z.eqb_refl. reflexivity.
    + apply (R_heap h); [|apply R_erase, Pm]. intros a I. cbn. destruct (Z.eqb_spec a (fresh h)) as [->|]; [|reflexivity].
      exfalso. apply Nf. exact (perase_in m _ _ I).
  - assert (Er : perase m (o_map o) = o_map o).
    { pose proof (R_keys h _ _ (rep_map _ _ _ P)) as K. apply lookup_none in L. rewrite <- K in L. clear - L.
      induction (o_map o) as [|[k a] l IH]; [reflexivity|]. cbn in *. destruct (Z.eqb_spec k m); [exfalso; auto|]. cbn. f_equal. apply IH. tauto. }
    unfold addrs. cbn [o_map map snd]. rewrite Er. constructor.
    + cbn. lia.
    + exact B.
    + intros a x. cbn. destruct (Z.eqb_spec a (fresh h)) as [->|]; [lia|]. intros C. apply B in C. lia.
    + intros a Na Na'. cbn. destruct (Z.eqb_spec a (fresh h)) as [->|]; [|reflexivity]. exfalso. apply Na'. left. reflexivity.
    + intros a [<-|I]; [right; lia|left; exact I].
    + constructor; [exact Nf|exact N].
    + intros a I I'. exfalso. apply I'. right. exact I.
Qed.
Lemma does_entry h o r t m loc scal : rep h o r -> bound h -> NoDup (addrs o) -> good r ->
  does (own_entry t m loc scal) (add_entry t m loc scal) h o r.
Proof.
  intros P B N G. destruct (does_rm h o r P B N G m) as (o1 & h1 & E1 & P1 & S1). unfold does, own_entry. rewrite E1. cbn [obind].
  destruct (does_insert h1 o1 (rmRule m r) m (mkEntry t (o_counts o1 t) loc scal) (bump (o_counts o1) t 1)
    (match t with MIndex => o_bad o1 | _ => negb (o_full o1) end) P1 (st_bound _ _ _ _ S1) (st_dup _ _ _ _ S1) (rmRule_absent m r))
    as (o2 & h2 & E2 & P2 & S2).
  exists o2, h2. split; [exact E2|]. split; [|exact (stepped_trans _ _ _ _ _ _ S1 S2)].
  unfold add_entry. cbv zeta. rewrite (rep_counts _ _ _ P1) in P2. rewrite (rep_bad _ _ _ P1), (rep_full _ _ _ P1) in P2. exact P2.
Qed.
Lemma does_copy h o r : rep h o r -> bound h -> NoDup (addrs o) -> good r -> does own_copy addCopy h o r.
Proof.
  intros P B N G. unfold does, own_copy, addCopy. rewrite (rep_counts _ _ _ P). destruct (counts r MCopy =? 0) eqn:E.
  - destruct (does_insert h o r META_COPY (mkEntry MCopy 0 0 0) (bump (counts r) MCopy 1) (o_bad o) P B N
      (copy_absent r G ltac:(lia))) as (o2 & h2 & E2 & P2 & S2).
    exists o2, h2. split; [exact E2|]. split; [|exact S2]. rewrite (rep_bad _ _ _ P) in P2. exact P2.
  - exists o, h. split; [reflexivity|]. split; [exact P|]. apply stepped_refl; assumption.
Qed.
Lemma does_proto h o r m p : rep h o r -> bound h -> NoDup (addrs o) -> good r -> does (own_proto m p) (add_proto m p) h o r.
Proof. intros P B N G. destruct p; cbn [own_proto add_proto]; [apply does_entry|apply does_entry|apply does_entry|apply does_copy]; assumption. Qed.
Lemma does_add h o r m : rep h o r -> bound h -> NoDup (addrs o) -> good r -> does (own_add m) (fun r => snd (addRule m r)) h o r.
Proof.
  intros P B N G. unfold does, own_add, addRule. pose proof (R_find h _ _ m (rep_map _ _ _ P)) as F. destruct (pfind m (o_map o)).
  - destruct F as (e & -> & _). cbn [snd]. exact (does_nothing h o r P B N (fun r => r) eq_refl).
  - rewrite F. destruct (predefined m) as [p|]; cbn [snd].
    + exact (does_proto h o r m p P B N G).
    + exact (does_nothing h o r P B N (fun r => r) eq_refl).
Qed.
Lemma R_read h L l : Forall2 (R h) L l -> omap (fun x => obind (cell h (snd x)) (fun e => Some (fst x, e))) L = Some l.
Proof.
  induction 1 as [|[k a] [k' e] L l (E & C) H IH]; cbn in *; [reflexivity|]. subst k'. rewrite C, IH. reflexivity.
Qed.
Lemma R_values h L l : Forall2 (R h) L l -> omap (fun x => cell h (snd x)) L = Some (map snd l).
Proof. induction 1 as [|[k a] [k' e] L l (E & C) H IH]; cbn in *; [reflexivity|]. rewrite C, IH. reflexivity. Qed.
Lemma does_extent h o r : rep h o r -> bound h -> NoDup (addrs o) -> does own_extent (fun r => snd (extent r)) h o r.
Proof.
  intros P B N. unfold does, own_extent, extent. rewrite (rep_full _ _ _ P), (rep_bad _ _ _ P).
  destruct (r_full r) eqn:Ef; cbn [snd]; [exact (does_nothing h o r P B N (fun r => r) eq_refl)|].
  destruct (r_bad r); [|exact (does_nothing h o r P B N (fun r => r) eq_refl)].
  rewrite (R_values h _ _ (rep_map _ _ _ P)). cbn [obind]. eexists. exists h. split; [reflexivity|]. split.
  - destruct P as [Pc Pm Ps Pe Pb Pf]. constructor; cbn; try congruence.
  - apply stepped_refl; assumption.
Qed.

(** a list of calls *)
Lemma does_all {A} (f : A -> object -> heap -> option (object * heap)) (g : A -> rule -> rule) l :
  (forall x h o r, In x l -> rep h o r -> bound h -> NoDup (addrs o) -> good r -> does (f x) (g x) h o r) ->
  (forall x r, In x l -> good r -> good (g x r)) ->
  forall h o r, rep h o r -> bound h -> NoDup (addrs o) -> good r ->
  does (own_all f l) (fun r => fold_left (fun r x => g x r) l r) h o r.
Proof.
  induction l as [|x l IH]; intros D Gd h o r P B N G.
  - exact (does_nothing h o r P B N (fun r => r) eq_refl).
  - destruct (D x h o r (or_introl eq_refl) P B N G) as (o1 & h1 & E1 & P1 & S1).
    destruct (IH (fun x h o r I => D x h o r (or_intror I)) (fun x r I => Gd x r (or_intror I)) h1 o1 (g x r) P1
      (st_bound _ _ _ _ S1) (st_dup _ _ _ _ S1) (Gd x r (or_introl eq_refl) G)) as (o2 & h2 & E2 & P2 & S2).
    exists o2, h2. split; [cbn [own_all]; rewrite E1; exact E2|]. split; [exact P2|exact (stepped_trans _ _ _ _ _ _ S1 S2)].
Qed.
Lemma does_adds l h o r : rep h o r -> bound h -> NoDup (addrs o) -> good r ->
  does (own_all own_add l) (fun r => fold_left (fun r m => snd (addRule m r)) l r) h o r.
Proof.
  apply (does_all own_add (fun m r => snd (addRule m r))); [intros; apply does_add; assumption|intros; apply addRule_good; assumption].
Qed.
Lemma does_op c h o r : rep h o r -> bound h -> NoDup (addrs o) -> good r -> does (own_op c) (fun r => run_op r c) h o r.
Proof.
  intros P B N G. destruct c; cbn [own_op run_op];
    [apply does_add|apply does_entry|apply does_entry|apply does_entry|apply does_entry|apply does_copy|apply does_rm|apply does_extent]; assumption.
Qed.

(** a new rule *)
Lemma rep_empty h full : rep h (mkObject (fun _ => 0) [] 0 0 false full) (empty_rule full).
Proof. constructor; try reflexivity. constructor. Qed.
Lemma own_new_spec ms full d x h : bound h ->
  exists o' h', own_new ms full d x h = Some (o', h') /\ rep h' o' (newRule ms full d x) /\ stepped h [] h' (addrs o').
Proof.
  intros B. unfold own_new, newRule.
  destruct (does_entry h _ _ MIndex 2 0 0 (rep_empty h full) B ltac:(constructor) (empty_good full)) as (o1 & h1 & E1 & P1 & S1).
  rewrite E1. cbn [obind fst snd]. change (addrs (mkObject _ [] 0 0 false full)) with (@nil Z) in S1.
  assert (G1 : good (addIndex 2 (empty_rule full))) by (apply add_entry_good; [apply empty_good|discriminate|discriminate]).
  destruct (does_entry h1 o1 _ MIndex 1 0 0 P1 (st_bound _ _ _ _ S1) (st_dup _ _ _ _ S1) G1) as (o2 & h2 & E2 & P2 & S2).
  rewrite E2. cbn [obind fst snd]. pose proof (stepped_trans _ _ _ _ _ _ S1 S2) as T2.
  assert (G2 : good (addIndex 1 (addIndex 2 (empty_rule full)))) by (apply add_entry_good; [exact G1|discriminate|discriminate]).
  destruct (does_adds ms h2 o2 _ P2 (st_bound _ _ _ _ S2) (st_dup _ _ _ _ S2) G2) as (o3 & h3 & E3 & P3 & S3).
  rewrite E3. cbn [obind fst snd]. pose proof (stepped_trans _ _ _ _ _ _ T2 S3) as T3. cbn beta in P3.
  pose proof (fold_addRule_good ms _ G2) as G3.
  set (r3 := fold_left (fun r m => snd (addRule m r)) ms (add_entry MIndex 1 0 0 (add_entry MIndex 2 0 0 (empty_rule full)))) in *.
  fold r3 in G3.
  change (fold_left (fun r m => snd (addRule m r)) ms (addIndex 1 (addIndex 2 (empty_rule full)))) with r3 in *.
  assert (D4 : exists o4 h4, (if d then own_all own_add default_metas o3 h3 else Some (o3, h3)) = Some (o4, h4) /\
    rep h4 o4 (if d then fold_left (fun r m => snd (addRule m r)) default_metas r3 else r3) /\ stepped h3 (addrs o3) h4 (addrs o4)).
  { destruct d; [exact (does_adds default_metas h3 o3 r3 P3 (st_bound _ _ _ _ S3) (st_dup _ _ _ _ S3) G3)|].
    exists o3, h3. split; [reflexivity|]. split; [exact P3|]. apply stepped_refl; [exact (st_bound _ _ _ _ S3)|exact (st_dup _ _ _ _ S3)]. }
  destruct D4 as (o4 & h4 & E4 & P4 & S4). rewrite E4. cbn [obind fst snd]. pose proof (stepped_trans _ _ _ _ _ _ T3 S4) as T4.
  assert (G4 : good (if d then fold_left (fun r m => snd (addRule m r)) default_metas r3 else r3)).
  { destruct d; [apply fold_addRule_good|]; exact G3. }
  set (r4 := if d then fold_left (fun r m => snd (addRule m r)) default_metas r3 else r3) in *.
  assert (D5 : exists o5 h5, (if x then own_all own_add extra_metas o4 h4 else Some (o4, h4)) = Some (o5, h5) /\
    rep h5 o5 (if x then fold_left (fun r m => snd (addRule m r)) extra_metas r4 else r4) /\ stepped h4 (addrs o4) h5 (addrs o5)).
  { destruct x; [exact (does_adds extra_metas h4 o4 r4 P4 (st_bound _ _ _ _ S4) (st_dup _ _ _ _ S4) G4)|].
    exists o4, h4. split; [reflexivity|]. split; [exact P4|]. apply stepped_refl; [exact (st_bound _ _ _ _ S4)|exact (st_dup _ _ _ _ S4)]. }
  destruct D5 as (o5 & h5 & E5 & P5 & S5). rewrite E5. cbn [obind fst snd]. pose proof (stepped_trans _ _ _ _ _ _ T4 S5) as T5.
  set (r5 := if x then fold_left (fun r m => snd (addRule m r)) extra_metas r4 else r4) in *.
  destruct full.
  - eexists. exists h5. split; [reflexivity|]. split; [|exact T5].
    destruct P5 as [Pc Pm Ps Pe Pb Pf]. constructor; cbn; first [exact Pm | congruence].
  - destruct (does_extent h5 (mkObject (o_counts o5) (o_map o5) (o_start o5) (o_end o5) true false)
      (mkRule (counts r5) (translate r5) (r_start r5) (r_end r5) true false)) as (o6 & h6 & E6 & P6 & S6).
    + destruct P5 as [Pc Pm Ps Pe Pb Pf]. constructor; cbn; first [exact Pm | congruence].
    + exact (st_bound _ _ _ _ S5).
    + exact (st_dup _ _ _ _ S5).
    + exists o6, h6. split; [exact E6|]. split; [exact P6|]. exact (stepped_trans _ _ _ _ _ _ T5 S6).
Qed.

(** a rule from a map *)
Lemma alloc_all_spec l : forall h ps h', bound h -> alloc_all l h = (ps, h') ->
  Forall2 (R h') ps l /\ bound h' /\ fresh h <= fresh h' /\ NoDup (map snd ps) /\
  (forall a, In a (map snd ps) -> fresh h <= a) /\ (forall a, ~ In a (map snd ps) -> cell h' a = cell h a).
Proof.
  induction l as [|[m e] l IH]; intros h ps h' B E; cbn [alloc_all] in E.
  - injection E as <- <-. cbn. repeat split; auto; try lia; try constructor; contradiction.
  - destruct (alloc_all l (alloc e h)) as [ps1 h1] eqn:E1. injection E as <- <-.
    assert (B1 : bound (alloc e h)).
    { intros a x. cbn. destruct (Z.eqb_spec a (fresh h)) as [->|]; [lia|]. intros C. apply B in C. lia. }
    destruct (IH _ _ _ B1 E1) as (F & B' & Fr & N & Nw & S). cbn [fresh alloc] in *. cbn [map snd].
    assert (Nf : ~ In (fresh h) (map snd ps1)) by (intros I; apply Nw in I; lia).
    split; [|split; [exact B'|split; [lia|split; [constructor; assumption|split]]]].
    + constructor; [|exact F]. split; [reflexivity|]. cbn. rewrite (S _ Nf). cbn. rewrite Z.eqb_refl. reflexivity.
    + intros a [<-|I]; [lia|]. apply Nw in I. lia.
    + intros a Na. cbn in Na. rewrite S by tauto. cbn. destruct (Z.eqb_spec a (fresh h)) as [->|]; [tauto|reflexivity].
Qed.
Lemma own_map_spec l full h ps h1 : bound h -> alloc_all l h = (ps, h1) ->
  exists o' h', own_map ps full h1 = Some (o', h') /\ rep h' o' (mapRule l full) /\ stepped h [] h' (addrs o').
Proof.
  intros B E. destruct (alloc_all_spec l h ps h1 B E) as (F & B1 & Fr & N & Nw & S).
  assert (T : stepped h [] h1 (map snd ps)).
  { constructor; auto; try contradiction. }
  unfold own_map, mapRule. rewrite (R_read h1 _ _ F). cbn [obind]. destruct full.
  - eexists. exists h1. split; [reflexivity|]. split; [constructor; try reflexivity; exact F|exact T].
  - destruct (does_extent h1 (mkObject (fun t => count t l) ps 0 0 true false) (mkRule (fun t => count t l) l 0 0 true false))
      as (o' & h' & E' & P' & S').
    + constructor; try reflexivity. exact F.
    + exact B1.
    + exact N.
    + exists o', h'. split; [exact E'|]. split; [exact P'|]. exact (stepped_trans _ _ _ _ _ _ T S').
Qed.
Lemma numbers_nums t l : numbers t l = nums t l.
Proof.
  unfold numbers, nums. induction l as [|[m e] l IH]; [reflexivity|]. cbn [filter map snd].
  destruct (mdtype_eqb (e_type e) t); cbn [map snd]; [f_equal|]; exact IH.
Qed.
Lemma map_good l full : named l -> numbered l -> good (mapRule l full).
Proof.
  intros (K & C) D.
  assert (G : forall s e b, good (mkRule (fun t => count t l) l s e b full)).
  { intros s e b. split; [exact K|]. split; [|exact C]. intros t. cbn [counts translate]. specialize (D t).
    assert (L : length (numbers t l) = Z.to_nat (count t l)) by (unfold numbers, count; rewrite map_length; lia).
    rewrite L, numbers_nums in D. split; [exact D|]. unfold count. lia. }
  unfold mapRule. destruct full; [apply G|]. apply extent_good, G.
Qed.

(** the destructor *)
Lemma own_delete_spec L : forall h l, Forall2 (R h) L l -> NoDup (map snd L) -> bound h ->
  exists h', own_delete L h = Some h' /\ stepped h (map snd L) h' [].
Proof.
  induction L as [|[m a] L IH]; intros h l H N B; inversion H as [|x [m' e] L' l' (E & C) H']; subst.
  - exists h. split; [reflexivity|]. apply stepped_refl; [exact B|constructor].
  - cbn in E, C, N. inversion N as [|x l2 N1 N2]; subst. cbn [own_delete]. unfold free. rewrite C. cbn [obind].
    set (h1 := mkHeap (fun b => if b =? a then None else cell h b) (fresh h)).
    assert (B1 : bound h1) by (intros b x; subst h1; cbn; destruct (b =? a); [discriminate|apply B]).
    destruct (IH h1 l') as (h' & E & T); [|exact N2|exact B1|].
    { apply (R_heap h); [|exact H']. intros b I. subst h1. cbn. destruct (Z.eqb_spec b a) as [->|]; [contradiction|reflexivity]. }
    exists h'. split; [exact E|]. refine (stepped_trans _ _ _ _ _ _ _ T). constructor; try assumption.
    + cbn. lia.
    + intros b Nb _. subst h1. cbn in *. destruct (Z.eqb_spec b a) as [->|]; [tauto|reflexivity].
    + intros b I. left. right. exact I.
    + intros b [<-|I] Nb; subst h1; cbn; [rewrite Z.eqb_refl; reflexivity|contradiction].
Qed.

(** addRule(rule) of another rule and of the rule itself *)
Lemma own_from_present x o h : (exists a, pfind (fst x) (o_map o) = Some a) -> own_from x o h = Some (o, h).
Proof. intros (a & E). unfold own_from. rewrite E. reflexivity. Qed.
Lemma pfind_key L x : In x L -> exists a, pfind (fst x) L = Some a.
Proof.
  induction L as [|[k b] L IH]; [contradiction|]. intros [<-|I]; cbn.
  - rewrite Z.eqb_refl. eauto.
  - destruct (k =? fst x); [eauto|apply IH, I].
Qed.
Lemma own_self o h : own_all own_from (o_map o) o h = Some (o, h).
Proof.
  assert (H : forall l, (forall x, In x l -> In x (o_map o)) -> own_all own_from l o h = Some (o, h)).
  { induction l as [|x l IH]; intros S; [reflexivity|]. cbn [own_all].
    rewrite own_from_present by (apply pfind_key, S; left; reflexivity). cbn [obind fst snd]. apply IH. intros y I. apply S. right. exact I. }
  apply H. auto.
Qed.
Lemma addRules_self r : addRules r r = r.
Proof.
  unfold addRules. assert (H : forall l, (forall x, In x l -> In x (translate r)) -> fold_left (fun r x => add_from x r) l r = r).
  { induction l as [|[m e] l IH]; intros S; [reflexivity|]. cbn [fold_left].
    assert (E : add_from (m, e) r = r).
    { unfold add_from. cbn [fst]. destruct (lookup m (translate r)) eqn:L; [reflexivity|]. apply lookup_none in L. exfalso. apply L.
      apply (in_map fst) with (x := (m, e)). apply S. left. reflexivity. }
    rewrite E. apply IH. intros y I. apply S. right. exact I. }
  apply H. auto.
Qed.
Lemma does_from h o r x y : R h x y -> rep h o r -> bound h -> NoDup (addrs o) -> good r -> does (own_from x) (add_from y) h o r.
Proof.
  intros (E & C) P B N G. unfold does, own_from, add_from. rewrite <- E. pose proof (R_find h _ _ (fst x) (rep_map _ _ _ P)) as F.
  destruct (pfind (fst x) (o_map o)).
  - destruct F as (e & -> & _). exact (does_nothing h o r P B N (fun r => r) eq_refl).
  - rewrite F, C. cbn [obind].
    destruct (e_type (snd y)); [apply does_entry|apply does_entry|apply does_entry|apply does_entry|apply does_copy]; assumption.
Qed.
Lemma own_others L l : forall h o r, Forall2 (R h) L l -> (forall a, In a (map snd L) -> ~ In a (addrs o)) ->
  (forall m e, In (m, e) l -> (m = META_COPY <-> e_type e = MCopy)) ->
  rep h o r -> bound h -> NoDup (addrs o) -> good r ->
  does (own_all own_from L) (fun r => fold_left (fun r x => add_from x r) l r) h o r.
Proof.
  revert l. induction L as [|x L IH]; intros l h o r H Dj Cp P B N G; inversion H as [|? y ? l' Hx H']; subst.
  - exact (does_nothing h o r P B N (fun r => r) eq_refl).
  - destruct (does_from h o r x y Hx P B N G) as (o1 & h1 & E1 & P1 & S1).
    assert (Keep : forall a, In a (map snd L) -> ~ In a (addrs o1) /\ cell h1 a = cell h a).
    { intros a I. assert (Na : ~ In a (addrs o1)).
      { intros J. destruct (st_new _ _ _ _ S1 a J) as [K|K]; [apply (Dj a); [right; exact I|exact K]|].
        destruct (R_live h _ _ a H' I) as (e & C). apply B in C. lia. }
      split; [exact Na|]. apply (st_frame _ _ _ _ S1); [|exact Na]. apply Dj. right. exact I. }
    destruct (IH l' h1 o1 (add_from y r)) as (o2 & h2 & E2 & P2 & S2).
    + apply (R_heap h); [|exact H']. intros a I. apply Keep, I.
    + intros a I. apply Keep, I.
    + intros m e I. apply Cp. right. exact I.
    + exact P1.
    + exact (st_bound _ _ _ _ S1).
    + exact (st_dup _ _ _ _ S1).
    + apply add_from_good; [exact G|]. destruct y as [m e]. apply Cp. left. reflexivity.
    + exists o2, h2. split; [cbn [own_all]; rewrite E1; exact E2|]. split; [exact P2|exact (stepped_trans _ _ _ _ _ _ S1 S2)].
Qed.
