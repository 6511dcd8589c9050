(** Model of Set::getMinMax on files (src/Flow/Set.cc:517-570 and 726-748) and of the
    programs examples/minmax.cc and examples/minmax.c, which print the twelve results.

    Simplifications: the command line, the file names and the printing are not modelled;
    the gathers of the search see the values of all ranks at once (C57 models the search);
    the extent a rule remembers is left out, since the rules here are full rules. *)
From Verif Require Import Base DecompModel DataIOModel RuleModel DoubleModel ParamModel FileModel SortSpec SortModel MinMaxModel FlowModel SetFileModel ExampleModel ExtremeModel.
Import ListNotations.
Open Scope Z_scope.

(** Set.cc:728-729: the rule with both entries. *)
Definition with_two (m1 m2 : Z) (rl : rule) : rule := snd (addRule m2 (snd (addRule m1 rl))).
(** Set.cc:742-747: the entries that were added are removed again. *)
Definition without_two (m1 m2 : Z) (rl : rule) : rule :=
  let b1 := fst (addRule m1 rl) in let b2 := fst (addRule m2 (snd (addRule m1 rl))) in
  let r := with_two m1 m2 rl in let r := if b1 then rmRule m1 r else r in if b2 then rmRule m2 r else r.
(** Set.cc:532-540: the pairs of values of one file on one rank. *)
Definition set_pairs (maxSize : Z) (sizes : list Z) (rl : rule) (m1 m2 : Z) (rf : reader * file) (il : list Z) : option (list trc) :=
  let n := Z.of_nat (length il) in
  obind (readTraceNonContiguous maxSize sizes (fst rf) il None (Some (newParam rl n)) 0 (snd rf)) (fun '(_, prm) =>
  obind prm (fun prm => omap (pair_at m1 m2 prm) (zr n))).
(** The files of a set on rank r of p (Set.cc:65-85). *)
Definition set_files (fl : list (gkey * (reader * file))) (p r : nat) : list fdesc :=
  add_files (Z.of_nat p) (Z.of_nat r) (map (fun x => (fst x, r_nt (fst (snd x)))) fl).
(** Set.cc:531-543: the values of file k on every rank. *)
Definition set_values (maxSize : Z) (sizes : nat -> nat -> list Z) (rl : rule) (m1 m2 : Z) (fl : list (gkey * (reader * file))) (p k : nat) : option (nat -> list trc) :=
  obind (omap (fun r => set_pairs maxSize (sizes k r) rl m1 m2 (nth k (map snd fl) (mkR 0 0 (d_of_Z 0) 0 [], mkFile 0 (fun _ => 0))) (f_ilst (nth k (set_files fl p r) no_fd))) (seq 0 p)) (fun l =>
  Some (fun r => nth r l [])).
(** Set.cc:517-570, 726-748: four results, and the rule of the set afterwards. *)
Definition set_getMinMax (maxSize : Z) (sizes : nat -> nat -> list Z) (m1 m2 : Z) (fl : list (gkey * (reader * file))) (p : nat) (rl : rule) : option (list elem * rule) :=
  obind (omap (set_values maxSize sizes (with_two m1 m2 rl) m1 m2 fl p) (seq 0 (length fl))) (fun files =>
  let zeros := (d_of_Z 0, d_of_Z 0) in
  let x := set_minmax zeros p files in let y := set_minmax zeros p (map (fun f r => map swap (f r)) files) in
  Some ([fst x; snd x; fst y; snd y], without_two m1 m2 rl)).
(** examples/minmax.cc:36-41: source (20, 21), receiver (22, 23) and midpoint (24, 25). *)
Definition example_minmax (maxSize : Z) (sizes : nat -> nat -> nat -> list Z) (fl : list (gkey * (reader * file))) (p : nat) : option (list elem) :=
  obind (set_getMinMax maxSize (sizes 0%nat) 20 21 fl p set_rule) (fun '(a, rl) =>
  obind (set_getMinMax maxSize (sizes 1%nat) 22 23 fl p rl) (fun '(b, rl) =>
  obind (set_getMinMax maxSize (sizes 2%nat) 24 25 fl p rl) (fun '(c, _) => Some (a ++ b ++ c)))).
