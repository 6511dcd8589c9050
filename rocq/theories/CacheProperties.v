(** C96, C97. *)
From Coq Require Import Lia.
From Verif Require Import Base DataIOModel DataIOProofs RuleModel ParamModel SignalModel SignalProofs CacheModel.
Import ListNotations.
Open Scope Z_scope.

Lemma desc_eqb_spec a b : reflect (a = b) (desc_eqb a b).
Proof. unfold desc_eqb. destruct (list_eq_dec Z.eq_dec a b); constructor; assumption. Qed.

(** The rule of the first request for these files. *)
Definition first_rule (d : list Z) (reqs : list (rule * list Z)) : option rule :=
  option_map fst (find (fun q => desc_eqb (snd q) d) reqs).

Section C96.
Context (P : Type).
Context (read : rule -> list Z -> P).
Notation serve := (serve P read).
(** Every element is complete, and holds what was read with the rule [f] names. *)
Definition holds (f : list Z -> option rule) (c : list (elem P)) : Prop :=
  forall d, option_map (fun e => el_block e) (find (fun e => desc_eqb (el_desc e) d) c) = option_map (fun r => Some (Some (read r d))) (f d).
Lemma find_app {X} (g : X -> bool) a b : find g (a ++ b) = match find g a with Some x => Some x | None => find g b end.
Proof. induction a as [|x a IH]; [reflexivity|]. cbn [find app]. destruct (g x); [reflexivity|exact IH]. Qed.
Lemma serve_first reqs : forall f c, holds f c -> let '(ps, c') := serve reqs c in
  (forall n r d, nth_error reqs n = Some (r, d) -> nth_error ps n = Some (read (match f d with Some r0 => r0 | None => match first_rule d reqs with Some r0 => r0 | None => r end end) d)) /\
  length ps = length reqs.
Proof.
  induction reqs as [|(r & d) reqs IH]; intros f c H; cbn [CacheModel.serve].
  - split; [intros [|n] r d E; discriminate E|reflexivity].
  - unfold getCache. pose proof (H d) as Hd. destruct (find (fun e => desc_eqb (el_desc e) d) c) as [e|] eqn:FE.
    + cbn [option_map] in Hd. destruct (f d) as [r0|] eqn:FD; [|discriminate Hd]. cbn [option_map] in Hd. destruct e as [d0 b]. cbn [el_block] in Hd. injection Hd as ->.
      specialize (IH f c H). destruct (serve reqs c) as [ps c']. destruct IH as [IH L]. split; [|cbn [length]; lia].
      intros [|n] r1 d1 E; cbn [nth_error] in *.
      * injection E as <- <-. rewrite FD. reflexivity.
      * rewrite (IH n r1 d1 E). destruct (f d1) eqn:F1; [reflexivity|]. unfold first_rule. cbn [find snd]. destruct (desc_eqb_spec d d1) as [->|ND]; [congruence|]. reflexivity.
    + cbn [option_map] in Hd. destruct (f d) as [r0|] eqn:FD; [discriminate Hd|].
      set (f' := fun x => if desc_eqb x d then Some r else f x). specialize (IH f' (c ++ [mkElem d (Some (Some (read r d)))])).
      assert (H' : holds f' (c ++ [mkElem d (Some (Some (read r d)))])).
      { intros x. rewrite find_app. unfold f'. pose proof (H x) as Hx. destruct (desc_eqb_spec x d) as [->|ND].
        - rewrite FE. cbn [find el_desc]. destruct (desc_eqb_spec d d); [reflexivity|congruence].
        - destruct (find (fun e => desc_eqb (el_desc e) x) c); [exact Hx|]. cbn [find el_desc]. destruct (desc_eqb_spec d x); [congruence|exact Hx]. }
      specialize (IH H'). destruct (serve reqs (c ++ [mkElem d (Some (Some (read r d)))])) as [ps c']. destruct IH as [IH L]. split; [|cbn [length]; lia].
      intros [|n] r1 d1 E; cbn [nth_error] in *.
      * injection E as <- <-. rewrite FD. unfold first_rule. cbn [find snd]. destruct (desc_eqb_spec d d); [reflexivity|congruence].
      * rewrite (IH n r1 d1 E). unfold f', first_rule. cbn [find snd]. destruct (desc_eqb_spec d1 d) as [->|ND].
        -- rewrite FD. destruct (desc_eqb_spec d d); [reflexivity|congruence].
        -- destruct (desc_eqb_spec d d1); [congruence|]. reflexivity.
Qed.
End C96.

(** In any history of requests, each gets what was read with the rule of the first request
    for the same files. *)
Theorem C96_first_rule_partial : forall P (read : rule -> list Z -> P) reqs n r d, nth_error reqs n = Some (r, d) ->
  exists r0, first_rule d reqs = Some r0 /\ nth_error (fst (serve P read reqs [])) n = Some (read r0 d).
Proof.
  intros P read reqs n r d H. assert (E : holds P read (fun _ => None) []) by (intros x; reflexivity).
  pose proof (serve_first P read reqs _ _ E) as Q. destruct (serve P read reqs []) as [ps c]. destruct Q as [Q _]. specialize (Q n r d H).
  assert (exists r0, first_rule d reqs = Some r0) as [r0 R0].
  { unfold first_rule. destruct (find _ reqs) as [q|] eqn:F; [exists (fst q); reflexivity|]. exfalso. pose proof (find_none _ _ F (r, d) (nth_error_In _ _ H)) as X. cbn in X. destruct (desc_eqb_spec d d); congruence. }
  exists r0. split; [exact R0|]. cbn [fst]. rewrite Q, R0. reflexivity.
Qed.
Print Assumptions C96_first_rule_partial.

(** So it is what was asked for if the files are always asked for with one rule. *)
Theorem C96_one_rule_partial : forall P (read : rule -> list Z -> P) reqs n r d, nth_error reqs n = Some (r, d) ->
  (forall r', In (r', d) reqs -> r' = r) -> nth_error (fst (serve P read reqs [])) n = Some (read r d).
Proof.
  intros P read reqs n r d H S. destruct (C96_first_rule_partial P read reqs n r d H) as (r0 & R0 & E). rewrite E. unfold first_rule in R0. destruct (find _ reqs) as [(r1 & d1)|] eqn:F; [|discriminate R0]. cbn in R0. injection R0 as <-.
  apply find_some in F. cbn in F. destruct F as [F1 F2]. destruct (desc_eqb_spec d1 d) as [->|]; [|discriminate F2]. rewrite (S r1 F1). reflexivity.
Qed.
Print Assumptions C96_one_rule_partial.

(** Two sorts of the same files: metadata that only the second one's rule names are not
    there for it, and getting them is undefined. *)
Theorem C96_second_sort_refuted : forall (read : rule -> list Z -> param) r1 r2 d i m, (forall r, translate (p_rule (read r d)) = translate r) ->
  lookup m (translate r1) = None -> lookup m (translate r2) <> None ->
  exists prm, nth_error (fst (serve param read [(r1, d); (r2, d)] [])) 1 = Some prm /\ getPrm i m prm = None /\ getEntry m (p_rule (read r2 d)) <> None.
Proof.
  intros read r1 r2 d i m K A B. destruct (C96_first_rule_partial param read [(r1, d); (r2, d)] 1 r2 d eq_refl) as (r0 & R0 & E).
  assert (r0 = r1) as ->. { unfold first_rule in R0. cbn [find snd] in R0. destruct (desc_eqb_spec d d); [|congruence]. cbn in R0. congruence. }
  exists (read r1 d). split; [exact E|]. unfold getPrm, getEntry. rewrite !K, A. split; [reflexivity|exact B].
Qed.
Print Assumptions C96_second_sort_refuted.

(** What is in the cache is never reported to be there. *)
Theorem C96_check_refuted : forall P (read : rule -> list Z -> P) reqs r d, In (r, d) reqs ->
  checkPrm P d (snd (serve P read reqs [])) = Done false /\ getOutputTrace P d (snd (serve P read reqs [])) = Done [].
Proof.
  intros P read reqs r d _. assert (K : forall c, (forall e, In e c -> el_block e <> None) -> checkPrm P d c = Done false).
  { induction c as [|e c IH]; intros H; [reflexivity|]. cbn [checkPrm]. unfold elem_check. pose proof (H e (or_introl eq_refl)) as X.
    destruct (desc_eqb (el_desc e) d); [destruct (el_block e); [|congruence]|]; cbn [obnd]; apply IH; intros; apply H; right; assumption. }
  assert (G : forall reqs c, (forall e, In e c -> el_block e <> None) -> forall e, In e (snd (serve P read reqs c)) -> el_block e <> None).
  { clear. induction reqs as [|(r & d) reqs IH]; intros c H; [exact H|]. cbn [serve]. destruct (getCache P read r d c) as [p c1] eqn:GC.
    assert (H1 : forall e, In e c1 -> el_block e <> None).
    { assert (AP : forall e, In e (c ++ [mkElem d (Some (Some (read r d)))]) -> el_block e <> None) by (intros e I; apply in_app_or in I; destruct I as [I|[<-|[]]]; [exact (H e I)|discriminate]).
      assert (FL : forall e, In e (fill P (read r d) d c) -> el_block e <> None).
      { clear - H. induction c as [|x c IH]; intros e I; [destruct I|]. cbn [fill] in I. destruct (desc_eqb (el_desc x) d).
        - destruct I as [<-|I]; [discriminate|]. apply H. right. exact I.
        - destruct I as [<-|I]; [apply H; left; reflexivity|]. apply IH; [|exact I]. intros; apply H; right; assumption. }
      unfold getCache in GC. destruct (find _ c) as [[d0 [[p0|]|]]|]; injection GC as <- <-; assumption. }
    specialize (IH c1 H1). destruct (serve P read reqs c1) as [ps c2]. exact IH. }
  assert (C := K _ (G reqs [] (fun e (i : In e []) => match i with end))). split; [exact C|]. unfold getOutputTrace. rewrite C. reflexivity.
Qed.
Print Assumptions C96_check_refuted.

(** A sort by inlines, then one by offset, of the same two files. *)
Example ex_C96 : let r1 := newRule [27] true false false in let r2 := newRule [14] true false false in
  lookup 14 (translate r1) = None /\ lookup 14 (translate r2) <> None /\
  (forall r, translate (p_rule ((fun r (_ : list Z) => newParam r 6) r [4; 9])) = translate r).
Proof. split; [reflexivity|]. split; [discriminate|reflexivity]. Qed.

(** ---- C97 ---- *)
Lemma hand_out_from sizes : forall j tr, 0 <= j -> (forall n, In n sizes -> 0 <= n) -> j + zsum sizes = zlen tr ->
  exists parts, hand_out j sizes tr = Done parts /\ concat parts = skipn (Z.to_nat j) tr /\ map (fun p => zlen p) parts = sizes.
Proof.
  induction sizes as [|n sizes IH]; intros j tr J P S.
  - exists []. cbn [hand_out concat map zsum fold_right] in *. split; [reflexivity|]. split; [|reflexivity]. symmetry. apply skipn_all2. unfold zlen in S. cbn in S. lia.
  - assert (N : 0 <= n) by (apply P; left; reflexivity). assert (SS : zsum (n :: sizes) = n + zsum sizes) by reflexivity.
    assert (Q : 0 <= zsum sizes). { clear - P. induction sizes as [|a l IH]; [cbn; lia|]. change (zsum (a :: l)) with (a + zsum l). pose proof (P a (or_intror (or_introl eq_refl))). enough (0 <= zsum l) by lia. apply IH. intros x [->|I]; apply P; [left; reflexivity|right; right; exact I]. }
    destruct (IH (j + n) tr) as (ps & E1 & E2 & E3); [lia|intros; apply P; right; assumption|lia|].
    exists (firstn (Z.to_nat n) (skipn (Z.to_nat j) tr) :: ps). cbn [hand_out]. unfold window_z.
    destruct (Z.leb_spec 0 j); [|lia]. destruct (Z.leb_spec 0 n); [|lia]. destruct (Z.leb_spec (j + n) (zlen tr)); [|lia]. cbn [andb obnd]. rewrite E1. cbn [obnd]. split; [reflexivity|]. cbn [concat map]. split.
    + rewrite E2. replace (Z.to_nat (j + n)) with (Z.to_nat n + Z.to_nat j)%nat by lia.
      assert (SK : forall a b (l : list Z), skipn (a + b) l = skipn a (skipn b l)). { clear. intros a b. revert a. induction b as [|b IH]; intros a l; [rewrite Nat.add_0_r; reflexivity|]. rewrite Nat.add_succ_r. destruct l as [|x l]; [rewrite !skipn_nil; reflexivity|]. cbn [skipn]. apply IH. }
      rewrite SK. apply firstn_skipn.
    + rewrite E3. f_equal. unfold zlen. rewrite firstn_length, skipn_length. unfold zlen in *. lia.
Qed.
(** A list as long as the files together is cut into the files' new positions, in order. *)
Theorem C97_hand_out : forall sizes tr, (forall n, In n sizes -> 0 <= n) -> zsum sizes = zlen tr ->
  exists parts, hand_out 0 sizes tr = Done parts /\ concat parts = tr /\ map (fun p => zlen p) parts = sizes.
Proof. intros sizes tr P S. apply (hand_out_from sizes 0 tr); [lia|exact P|lia]. Qed.
Print Assumptions C97_hand_out.

(** A sort that is refused because some rank has fewer than three traces leaves an empty
    list, and every rank that has a trace reads outside it. *)
Theorem C97_refused_refuted : forall nts sorted sizes, (exists n, In n nts /\ n < 3) -> (forall n, In n sizes -> 0 <= n) -> 0 < zsum sizes ->
  hand_out 0 sizes (sort_list nts sorted) = Undefined.
Proof.
  intros nts sorted sizes (n & I & L) P S. unfold sort_list. assert (existsb (fun n => n <? 3) nts = true) as -> by (apply existsb_exists; exists n; split; [exact I|apply Z.ltb_lt; exact L]).
  assert (G : forall l j, 0 <= j -> (forall n, In n l -> 0 <= n) -> 0 < zsum l -> hand_out j l [] = Undefined).
  { clear. induction l as [|n l IH]; intros j J P S; [cbn in S; lia|]. change (zsum (n :: l)) with (n + zsum l) in S. pose proof (P n (or_introl eq_refl)) as N. cbn [hand_out]. unfold window_z.
    destruct (Z.leb_spec 0 j); [|lia]. destruct (Z.leb_spec 0 n); [|lia]. cbn [andb zlen length Z.of_nat]. change (zlen (@nil Z)) with 0. destruct (Z.leb_spec (j + n) 0).
    - cbn [obnd]. rewrite IH; [reflexivity|lia|intros; apply P; right; assumption|lia].
    - reflexivity. }
  apply G; [lia|exact P|exact S].
Qed.
Print Assumptions C97_refused_refuted.
(** Two files of two and three traces on this rank; another rank has two traces only. *)
Example ex_C97 : hand_out 0 [2; 3] (sort_list [5; 4] [3; 1; 4; 0; 2]) = Done [[3; 1]; [4; 0; 2]] /\ hand_out 0 [2; 3] (sort_list [5; 2] [3; 1; 4; 0; 2]) = Undefined.
Proof. split; reflexivity. Qed.
