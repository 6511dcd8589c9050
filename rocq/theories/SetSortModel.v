(** Model of Set::sort followed by the output (src/Flow/Set.cc:573-604, 400-434,
    src/Flow/Cache.cc:22-75) on the files of one group: which positions the traces get.

    Simplification: the rows of the cached Param are sorted as a list of what the orders
    look at and the global trace number ([sort_metadata] of SortModel). *)
From Verif Require Import Base DecompModel DataIOModel RuleModel DoubleModel ParamModel FileModel SortModel FlowModel SetFileModel.

(** Set.cc:575-578: il, xl, xSrc, ySrc, xRcv, yRcv, xCmp, yCmp, Offset, WtrDepRcv, tn. *)
Definition sort_rule : rule := newRule [26; 27; 20; 21; 22; 23; 24; 25; 14; 19; 5] true false false.
(** Set.cc:582, for a set without other operations. *)
Definition sort_set_rule : rule := addRules sort_rule set_rule.

(** Cache.cc:46-51: global (2) and local (1) trace numbers of the rows of one file. *)
Definition number_rows (off loff nf c : Z) (ilst : list Z) (p : param) : option param :=
  fold_left (fun op i => obind op (fun p =>
    obind (setPrm (loff + i) 2 (VI (off + loff + nth (Z.to_nat i) ilst 0)) p)
          (setPrm (loff + i) 1 (VI (nth (Z.to_nat i) ilst 0 * nf + c))))) (zr (Z.of_nat (length ilst))) (Some p).
(** Cache.cc:41-54; [c] counts the files. *)
Fixpoint cache_files (maxSize : Z) (sizes : nat -> list Z) (off loff nf : Z) (c : nat) (g : list ((reader * file) * list Z)) (p : param) : option param :=
  match g with
  | [] => Some p
  | ((rd, f), ilst) :: g =>
    obind (readTraceNonContiguous maxSize (sizes c) rd ilst None (Some p) loff f) (fun '(_, p) => obind p (fun p =>
    obind (number_rows off loff nf (Z.of_nat c) ilst p) (cache_files maxSize sizes off (loff + Z.of_nat (length ilst)) nf (S c) g)))
  end.
(** sort.cc:62-362, 934-940: what the sort looks at in a row. *)
Definition sort_row (p : param) (i : Z) : option (geo * Z) :=
  obind (geo_at p i) (fun a => obind (obind (getPrm i 2 p) asZ) (fun n => Some (a, n))).
(** Cache.cc:30-36: the number of local traces of the group *)
Definition group_lnt (fds : nat -> list fdesc) (r : nat) : Z := zsum (map (fun fd => Z.of_nat (length (f_ilst fd))) (fds r)).
(** Cache.cc:30-56 on rank r: the rows of the group [g]. *)
Definition group_rows (maxSize : Z) (sizes : nat -> nat -> list Z) (g : list (reader * file)) (fds : nat -> list fdesc) (r : nat) : option (list (geo * Z)) :=
  let lnt := group_lnt fds r in
  let off := zsum (map (group_lnt fds) (seq 0 r)) in
  obind (cache_files maxSize (sizes r) off 0 (Z.of_nat (length (fds r))) 0 (List.combine g (map f_ilst (fds r))) (newParam sort_rule lnt)) (fun prm =>
  omap (sort_row prm) (zr lnt)).

(** A row of a new Param (sort.cc:884). *)
Definition no_row : geo * Z := (mkGeo (d_of_Z 0) (d_of_Z 0) (d_of_Z 0) (d_of_Z 0) 0 0 0 0, 0).
Definition by_type (type : Z) (a b : geo * Z) : bool := getComp type (fst a) (fst b).
(** Set.cc:590-603: an empty list when a rank has fewer than three traces. *)
Definition sort_positions (fuel fuel2 : nat) (srt : sorter) (type : Z) (p : nat) (rows : nat -> list (geo * Z)) : option (nat -> list Z) :=
  if existsb (fun r => Nat.ltb (length (rows r)) 3) (seq 0 p) then Some (fun _ => [])
  else option_map snd (sort_metadata fuel fuel2 srt (by_type type) snd no_row p rows).
(** Set.cc:418-422: the list goes to the files in turn; reading past its end is undefined. *)
Fixpoint hand_olst (j : nat) (fds : list fdesc) (tr : list Z) : option (list fdesc) :=
  match fds with
  | [] => Some []
  | fd :: fds =>
    let n := length (f_olst fd) in
    if Nat.leb (j + n) (length tr)
    then obind (hand_olst (j + n) fds tr) (fun l => Some (mkFd (f_key fd) (f_nt fd) (f_ilst fd) (firstn n (skipn j tr)) :: l))
    else None
  end.
(** Set.cc:400-423 on all ranks. *)
Definition sort_set (fuel fuel2 : nat) (maxSize : Z) (sizes : nat -> nat -> list Z) (srt : sorter) (type : Z) (g : list (reader * file)) (fds : nat -> list fdesc) (p : nat) : option (nat -> list fdesc) :=
  obind (omap (group_rows maxSize sizes g fds) (seq 0 p)) (fun rows =>
  obind (sort_positions fuel fuel2 srt type p (fun r => nth r rows [])) (fun pos =>
  obind (omap (fun r => hand_olst 0 (fds r) (pos r)) (seq 0 p)) (fun l =>
  Some (fun r => nth r l [])))).
