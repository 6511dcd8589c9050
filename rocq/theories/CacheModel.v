(** The metadata cache of a set of files (/repo/src/Flow/Cache.cc,
    /repo/include/ExSeisDat/Flow/Cache.hh and CacheElem.hh) and what a sort does with its
    result (/repo/src/Flow/Set.cc:400-434, 586-604). *)
From Verif Require Import Base DataIOModel RuleModel SignalModel.
Import ListNotations.
Open Scope Z_scope.

(** Equality of deques of shared pointers; a descriptor is the number of its object. *)
Definition desc_eqb (a b : list Z) : bool := if list_eq_dec Z.eq_dec a b then true else false.
Section Cache.
Context (P : Type).
(** CacheElem.hh:20-28: the block is a pointer, and so is its parameter set.
    Simplification: the traces of a block are left out, no caller caches them. *)
Record elem := mkElem { el_desc : list Z; el_block : option (option P) }.
(** Cache.cc:25-65: what is read from the files with the given rule. *)
Context (read : rule -> list Z -> P).
(** Cache.cc:25-27, 60-65: the first element with the descriptor is completed. *)
Fixpoint fill (p : P) (d : list Z) (c : list elem) : list elem :=
  match c with
  | [] => []
  | e :: c => if desc_eqb (el_desc e) d then mkElem (el_desc e) (Some (Some p)) :: c else e :: fill p d c
  end.
(** Cache.cc:22-75, cachePrm *)
Definition getCache (r : rule) (d : list Z) (c : list elem) : P * list elem :=
  match find (fun e => desc_eqb (el_desc e) d) c with
  | Some (mkElem _ (Some (Some p))) => (p, c)
  | Some _ => (read r d, fill (read r d) d c)
  | None => (read r d, c ++ [mkElem d (Some (Some (read r d)))])
  end.
(** A history of requests, and the answers. *)
Fixpoint serve (reqs : list (rule * list Z)) (c : list elem) : list P * list elem :=
  match reqs with
  | [] => ([], c)
  | (r, d) :: reqs => let '(p, c) := getCache r d c in let '(ps, c) := serve reqs c in (p :: ps, c)
  end.
(** CacheElem.hh:63-66: desc == desc_ && !block && block->prm *)
Definition elem_check (d : list Z) (e : elem) : outcome bool :=
  if desc_eqb (el_desc e) d then match el_block e with None => Undefined | Some _ => Done false end else Done false.
(** Cache.hh:78-85 *)
Fixpoint checkPrm (d : list Z) (c : list elem) : outcome bool :=
  match c with [] => Done false | e :: c => obnd (elem_check d e) (fun b => if b then Done true else checkPrm d c) end.
(** Cache.cc:77-113.  Simplification: the part after a successful check is left out
    ([Undefined]); elem_check is never true. *)
Definition getOutputTrace (d : list Z) (c : list elem) : outcome (list Z) :=
  obnd (checkPrm d c) (fun b => if b then Undefined else Done []).
(** Cache.hh:103-109: erase(end()) is undefined. *)
Fixpoint flush (d : list Z) (c : list elem) : outcome (list elem) :=
  match c with
  | [] => Undefined
  | e :: c => if desc_eqb (el_desc e) d then Done c else obnd (flush d c) (fun c => Done (e :: c))
  end.
End Cache.
Arguments mkElem {P} _ _. Arguments el_desc {P} _. Arguments el_block {P} _.

(** Elements j .. j + n - 1 of a list. *)
Definition window_z (s : list Z) (j n : Z) : outcome (list Z) :=
  if (0 <=? j) && (0 <=? n) && (j + n <=? zlen s) then Done (firstn (Z.to_nat n) (skipn (Z.to_nat j) s)) else Undefined.
(** Set.cc:418-422: the list goes to the files in turn; [sizes] are the lengths of their
    olst.  Reading outside the list is undefined.  (That &trlist[n] is formed at the end of
    the list, which the standard forbids for n = size(), is not counted.) *)
Fixpoint hand_out (j : Z) (sizes : list Z) (tr : list Z) : outcome (list (list Z)) :=
  match sizes with
  | [] => Done []
  | n :: sizes => obnd (window_z tr j n) (fun part => obnd (hand_out (j + n) sizes tr) (fun ps => Done (part :: ps)))
  end.
(** Set.cc:590-603 on one rank: the list the sort returns; [nts] are the numbers of traces
    of all ranks, [sorted] is the result of PIOL::sort. *)
Definition sort_list (nts : list Z) (sorted : list Z) : list Z := if existsb (fun n => n <? 3) nts then [] else sorted.
