(** Specification for C110 and C111: programs that keep to the interface, the
    rules they hold when every rule is a value, and who owns an entry. *)
From Coq Require Import Permutation.
From Verif Require Import Base RuleModel OwnModel.

(** A map of entries a program can make a rule from: no name twice, COPY for
    the copy entry only, and in each type the numbers 0, 1, 2, ... in some order. *)
Definition numbers (t : mdtype) (l : list (Z * entry)) : list Z :=
  map (fun x => e_num (snd x)) (filter (fun x => mdtype_eqb (e_type (snd x)) t) l).
Definition numbered (l : list (Z * entry)) : Prop :=
  forall t, Permutation (numbers t l) (zrange (length (numbers t l))).
Definition named (l : list (Z * entry)) : Prop :=
  NoDup (map fst l) /\ forall m e, In (m, e) l -> (m = META_COPY <-> e_type e = MCopy).
(** COPY is not given to a typed entry. *)
Definition proper (c : op) : Prop :=
  match c with
  | OLong m _ | OShort m _ | OFloat m _ _ | OIndex m => m <> META_COPY
  | _ => True
  end.
(** A program uses rules only while they exist and copies none. *)
Fixpoint legal (alive : list bool) (cs : list call) : Prop :=
  match cs with
  | [] => True
  | New _ _ _ _ :: cs => legal (alive ++ [true]) cs
  | FromMap l _ :: cs => named l /\ numbered l /\ legal (alive ++ [true]) cs
  | Change i c :: cs => nth_error alive i = Some true /\ proper c /\ legal alive cs
  | AddAll i j :: cs => nth_error alive i = Some true /\ nth_error alive j = Some true /\ legal alive cs
  | Destroy i :: cs => nth_error alive i = Some true /\ legal (put i false alive) cs
  | Copy _ :: _ => False
  end.

(** The same program on rules that are values. *)
Definition value (vs : list (option rule)) (c : call) : list (option rule) :=
  let change i f := match nth_error vs i with Some (Some r) => put i (Some (f r)) vs | _ => vs end in
  match c with
  | New ms full d x => vs ++ [Some (newRule ms full d x)]
  | FromMap l full => vs ++ [Some (mapRule l full)]
  | Change i c => change i (fun r => run_op r c)
  | AddAll i j => match nth_error vs j with Some (Some r2) => change i (addRules r2) | _ => vs end
  | Destroy i => put i None vs
  | Copy i => match nth_error vs i with Some (Some r) => vs ++ [Some r] | _ => vs end
  end.
Definition values (cs : list call) : list (option rule) := fold_left value cs [].

(** What a program sees of a rule: the entries its pointers lead to. *)
Definition view (h : heap) (o : object) : option rule :=
  obind (omap (fun x => obind (cell h (snd x)) (fun e => Some (fst x, e))) (o_map o)) (fun l =>
  Some (mkRule (o_counts o) l (o_start o) (o_end o) (o_bad o) (o_full o))).
Definition same (h : heap) (o : option object) (v : option rule) : Prop :=
  match o with Some o => exists r, v = Some r /\ view h o = Some r | None => v = None end.

(** The entries the rules of a program hold. *)
Definition owned (os : list (option object)) : list Z :=
  flat_map (fun o => match o with Some o => map snd (o_map o) | None => [] end) os.
Definition allocated (h : heap) (a : Z) : Prop := exists e, cell h a = Some e.
