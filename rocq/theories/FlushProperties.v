(** More about the log and the cache: C72 (counting) and C96 (flushing). *)
From Coq Require Import Lia.
From Verif Require Import Base DataIOModel RuleModel SignalModel CommModel CommProperties CacheModel CacheProperties.
Import ListNotations.
Open Scope Z_scope.

(** ---- C72 ---- *)
(** Is this call a report with severity st that the verbosity lets through? *)
Definition counted (lvl : Z) (st : status) (c : log_call) : bool :=
  match c with
  | Rec s v | RecIf s v true => (v <=? lvl) && (if (ltac:(decide equality) : {s = st} + {s <> st}) then true else false)
  | _ => false
  end.
Lemma status_eqb_dec s st (D : {s = st} + {s <> st}) : status_eqb s st = if D then true else false.
Proof. destruct D as [->|N]; [destruct st; reflexivity|destruct s, st; try reflexivity; congruence]. Qed.
Lemma kept_counted lvl st cs : length (filter (fun i => status_eqb (i_stat i) st) (kept lvl cs)) = length (filter (counted lvl st) cs).
Proof.
  induction cs as [|c cs IH]; [reflexivity|]. assert (X : forall s v, length (filter (fun i => status_eqb (i_stat i) st) (kept lvl cs ++ (if v <=? lvl then [mkItem s v] else []))) =
    (length (filter (counted lvl st) cs) + (if ((v <=? lvl)%Z && status_eqb s st)%bool then 1 else 0))%nat).
  { intros s v. rewrite filter_app, app_length, IH. destruct (v <=? lvl); cbn [filter i_stat andb]; [destruct (status_eqb s st); reflexivity|reflexivity]. }
  destruct c as [s v|s v []|]; cbn [kept]; [| |exact IH|exact IH]; rewrite X; cbn [filter]; unfold counted at 2; rewrite <- status_eqb_dec; destruct ((v <=? lvl) && status_eqb s st)%bool; cbn [length]; lia.
Qed.
(** C72: the number of reports of a severity is the number of reports of it, within the
    verbosity, since the log was last printed. *)
Theorem C72_counts : forall lvl st before cs, no_proc cs ->
  numStat st (log_run (newLogger lvl) (before ++ Proc :: cs)) = length (filter (counted lvl st) cs) /\ numStat st (log_run (newLogger lvl) cs) = length (filter (counted lvl st) cs).
Proof. intros lvl st before cs N. destruct (C72_reports_kept lvl before cs N) as (A & B). unfold numStat. rewrite A, B. split; apply kept_counted. Qed.
Print Assumptions C72_counts.
Example C72_counts_nonvacuous : no_proc [Rec Warning 0; RecIf Warning 1 true; RecIf Warning 1 false; Rec Error 0; Rec Warning 7] /\
  length (filter (counted 1 Warning) [Rec Warning 0; RecIf Warning 1 true; RecIf Warning 1 false; Rec Error 0; Rec Warning 7]) = 2%nat.
Proof. split; [|reflexivity]. intros H. cbn in H. intuition discriminate. Qed.

(** ---- C96 ---- *)
Section Flush.
Context (P : Type).
Context (read : rule -> list Z -> P).
Lemma fill_descs p d (c : list (elem P)) : map el_desc (fill P p d c) = map el_desc c.
Proof. induction c as [|e c IH]; [reflexivity|]. cbn [fill]. destruct (desc_eqb (el_desc e) d); [reflexivity|]. cbn [map]. rewrite IH. reflexivity. Qed.
Lemma get_descs r d (c : list (elem P)) : NoDup (map el_desc c) ->
  NoDup (map el_desc (snd (getCache P read r d c))) /\ forall x, In x (map el_desc (snd (getCache P read r d c))) <-> In x (map el_desc c) \/ x = d.
Proof.
  intros N. unfold getCache. destruct (find _ c) as [[d0 b]|] eqn:FE.
  - apply find_some in FE. cbn [el_desc] in FE. destruct FE as (I & E). destruct (desc_eqb_spec d0 d) as [->|]; [|discriminate]. assert (ID : In d (map el_desc c)) by (apply in_map_iff; exists (mkElem d b); split; [reflexivity|exact I]).
    assert (Q : map el_desc (snd match b with Some (Some p) => (p, c) | _ => (read r d, fill P (read r d) d c) end) = map el_desc c) by (destruct b as [[p|]|]; cbn [snd]; [reflexivity|apply fill_descs|apply fill_descs]).
    rewrite Q. split; [exact N|]. intros x. split; [intros H; left; exact H|intros [H| ->]; assumption].
  - cbn [snd]. rewrite map_app. cbn [map el_desc]. assert (NI : ~ In d (map el_desc c)).
    { intros H. apply in_map_iff in H. destruct H as (e & E & I). pose proof (find_none _ _ FE e I) as X. cbn in X. rewrite E in X. destruct (desc_eqb_spec d d); [discriminate|congruence]. }
    split.
    + clear - N NI. induction (map el_desc c) as [|a l IH]; [constructor; [intros []|constructor]|]. inversion N as [|? ? NA N1]; subst. cbn [app]. constructor.
      * intros H. apply in_app_or in H. destruct H as [H|[H|[]]]; [exact (NA H)|apply NI; left; symmetry; exact H].
      * apply IH; [exact N1|intros H; apply NI; right; exact H].
    + intros x. rewrite in_app_iff. cbn [In]. split; intros [H|H]; [left; exact H|right; destruct H as [H|[]]; symmetry; exact H|left; exact H|right; left; symmetry; exact H].
Qed.
Lemma serve_descs reqs : forall (c : list (elem P)), NoDup (map el_desc c) ->
  NoDup (map el_desc (snd (serve P read reqs c))) /\ forall x, In x (map el_desc (snd (serve P read reqs c))) <-> In x (map el_desc c) \/ exists r, In (r, x) reqs.
Proof.
  induction reqs as [|(r & d) reqs IH]; intros c N.
  - cbn [serve snd]. split; [exact N|]. intros x. split; [intros H; left; exact H|intros [H|(r & [])]; exact H].
  - cbn [serve]. destruct (get_descs r d c N) as (N1 & I1). destruct (getCache P read r d c) as [p c1]. cbn [snd] in *. destruct (IH c1 N1) as (N2 & I2). destruct (serve P read reqs c1) as [ps c2]. cbn [snd] in *. split; [exact N2|].
    intros x. rewrite I2, I1. split.
    + intros [[H| ->]|(r' & H)]; [left; exact H|right; exists r; left; reflexivity|right; exists r'; right; exact H].
    + intros [H|(r' & [H|H])]; [left; left; exact H|injection H as <- <-; left; right; reflexivity|right; exists r'; exact H].
Qed.
Lemma flush_finds d : forall (c : list (elem P)), NoDup (map el_desc c) -> In d (map el_desc c) ->
  exists c', flush P d c = Done c' /\ forall x, find (fun e => desc_eqb (el_desc e) x) c' = if desc_eqb x d then None else find (fun e => desc_eqb (el_desc e) x) c.
Proof.
  induction c as [|e c IH]; intros N I; [destruct I|]. cbn [map] in *. inversion N as [|? ? NA N1]; subst. cbn [flush]. destruct (desc_eqb_spec (el_desc e) d) as [E|NE].
  - exists c. split; [reflexivity|]. intros x. cbn [find]. destruct (desc_eqb_spec x d) as [->|NX].
    + destruct (find _ c) as [e'|] eqn:F; [|reflexivity]. apply find_some in F. destruct F as (F1 & F2). destruct (desc_eqb_spec (el_desc e') d) as [E'|]; [|discriminate]. exfalso. apply NA. rewrite E, <- E'. apply in_map. exact F1.
    + destruct (desc_eqb_spec (el_desc e) x); [congruence|reflexivity].
  - destruct I as [I|I]; [congruence|]. destruct (IH N1 I) as (c' & -> & F). cbn [obnd]. exists (e :: c'). split; [reflexivity|]. intros x. cbn [find]. rewrite F. destruct (desc_eqb_spec (el_desc e) x) as [<-|]; [|reflexivity].
    destruct (desc_eqb_spec (el_desc e) d); [contradiction|reflexivity].
Qed.
Lemma flush_misses d : forall (c : list (elem P)), ~ In d (map el_desc c) -> flush P d c = Undefined.
Proof.
  induction c as [|e c IH]; intros N; [reflexivity|]. cbn [map] in N. cbn [flush]. destruct (desc_eqb_spec (el_desc e) d) as [E|_]; [exfalso; apply N; left; exact E|]. rewrite IH; [reflexivity|]. intros H. apply N. right. exact H.
Qed.
End Flush.

(** C96: after any history of requests, flushing files that were asked for makes the next
    request for them read them again, with its own rule; requests for other files are
    answered as before. *)
Theorem C96_flush : forall P (read : rule -> list Z -> P) reqs r d, In (r, d) reqs ->
  exists c, flush P d (snd (serve P read reqs [])) = Done c /\
  (forall r', fst (getCache P read r' d c) = read r' d) /\
  (forall r' d', d' <> d -> fst (getCache P read r' d' c) = fst (getCache P read r' d' (snd (serve P read reqs [])))).
Proof.
  intros P read reqs r d I. destruct (serve_descs P read reqs [] ltac:(constructor)) as (N & D). destruct (flush_finds P d (snd (serve P read reqs [])) N) as (c & E & F); [apply D; right; exists r; exact I|].
  exists c. split; [exact E|]. split.
  - intros r'. unfold getCache. rewrite F. destruct (desc_eqb_spec d d); [reflexivity|congruence].
  - intros r' d' ND. unfold getCache. rewrite F. destruct (desc_eqb_spec d' d); [contradiction|]. destruct (find _ (snd (serve P read reqs []))) as [[d0 [[p|]|]]|]; reflexivity.
Qed.
Print Assumptions C96_flush.

(** Flushing files that were never asked for is undefined. *)
Theorem C96_flush_unknown_refuted : forall P (read : rule -> list Z -> P) reqs d, (forall r, ~ In (r, d) reqs) -> flush P d (snd (serve P read reqs [])) = Undefined.
Proof.
  intros P read reqs d H. apply flush_misses. destruct (serve_descs P read reqs [] ltac:(constructor)) as (_ & D). rewrite D. intros [[]|(r & I)]. exact (H r I).
Qed.
Print Assumptions C96_flush_unknown_refuted.
Example C96_flush_nonvacuous : In (newRule [14] true false false, [4; 9]) [(newRule [27] true false false, [4; 9]); (newRule [14] true false false, [4; 9]); (newRule [27] true false false, [5])] /\
  (forall r, ~ In (r, [4]) [(newRule [27] true false false, [4; 9]); (newRule [14] true false false, [4; 9]); (newRule [27] true false false, [5])]).
Proof. split; [right; left; reflexivity|]. intros r [H|[H|[H|[]]]]; discriminate H. Qed.
