(** Model of the memory behind src/Rule.cc: a rule holds raw pointers to its
    entries (Rule.hh:88-91), which it allocates with new and frees with delete,
    and the class keeps the compiler's copy constructor although its destructor
    frees the entries.  RuleModel.v, by contrast, takes a pointer for the entry
    it points to.  [None] is undefined behaviour: an entry used or freed after
    it was freed. *)
From Verif Require Import Base RuleModel.

(** The entries that are allocated, by address.  Addresses are not used again,
    so that a use after free is seen as such. *)
Record heap := mkHeap { cell : Z -> option entry; fresh : Z }.
Definition no_heap : heap := mkHeap (fun _ => None) 0.
(** new SEGY...RuleEntry(...) *)
Definition alloc (e : entry) (h : heap) : heap :=
  mkHeap (fun a => if a =? fresh h then Some e else cell h a) (fresh h + 1).
(** delete entry *)
Definition free (a : Z) (h : heap) : option heap :=
  match cell h a with
  | Some _ => Some (mkHeap (fun b => if b =? a then None else cell h b) (fresh h))
  | None => None
  end.
(** an assignment through the pointer *)
Definition store (a : Z) (e : entry) (h : heap) : option heap :=
  match cell h a with
  | Some _ => Some (mkHeap (fun b => if b =? a then Some e else cell h b) (fresh h))
  | None => None
  end.

(** Rule.hh:51-91, with the map from metadata to pointers. *)
Record object := mkObject {
  o_counts : mdtype -> Z; o_map : list (Z * Z);
  o_start : Z; o_end : Z; o_bad : bool; o_full : bool }.
(** translate.find, translate.erase *)
Fixpoint pfind (m : Z) (l : list (Z * Z)) : option Z :=
  match l with
  | [] => None
  | (k, a) :: r => if k =? m then Some a else pfind m r
  end.
Definition perase (m : Z) (l : list (Z * Z)) : list (Z * Z) := filter (fun x => negb (fst x =? m)) l.

(** Rule.cc:345-349: the loop of rmRule that renumbers the entries left. *)
Fixpoint renumber (t : mdtype) (k : Z) (l : list (Z * Z)) (h : heap) : option heap :=
  match l with
  | [] => Some h
  | (_, a) :: l =>
    obind (cell h a) (fun e =>
    if mdtype_eqb (e_type e) t && (k <? e_num e)
    then obind (store a (mkEntry (e_type e) (e_num e - 1) (e_loc e) (e_scal e)) h) (renumber t k l)
    else renumber t k l h)
  end.
(** Rule.cc:313-354, rmRule *)
Definition own_rm (m : Z) (o : object) (h : heap) : option (object * heap) :=
  match pfind m (o_map o) with
  | None => Some (o, h)
  | Some a =>
    obind (cell h a) (fun e =>
    obind (free a h) (fun h =>
    let l := perase m (o_map o) in
    obind (renumber (e_type e) (e_num e) l h) (fun h =>
    Some (mkObject (bump (o_counts o) (e_type e) (-1)) l (o_start o) (o_end o) (negb (o_full o)) (o_full o), h))))
  end.
(** Rule.cc:259-303: addLong, addShort, addSEGYFloat, addIndex *)
Definition own_entry (t : mdtype) (m loc scal : Z) (o : object) (h : heap) : option (object * heap) :=
  obind (own_rm m o h) (fun x => let (o, h) := x in
  Some (mkObject (bump (o_counts o) t 1) ((m, fresh h) :: perase m (o_map o)) (o_start o) (o_end o)
          (match t with MIndex => o_bad o | _ => negb (o_full o) end) (o_full o),
        alloc (mkEntry t (o_counts o t) loc scal) h)).
(** Rule.cc:305-311, addCopy: a pointer the map already has under that name is
    overwritten, not freed. *)
Definition own_copy (o : object) (h : heap) : option (object * heap) :=
  if o_counts o MCopy =? 0
  then Some (mkObject (bump (o_counts o) MCopy 1) ((META_COPY, fresh h) :: perase META_COPY (o_map o))
               (o_start o) (o_end o) (o_bad o) (o_full o),
             alloc (mkEntry MCopy 0 0 0) h)
  else Some (o, h).
(** Rule.cc:109-233, addRule(Meta) *)
Definition own_proto (m : Z) (p : proto) (o : object) (h : heap) : option (object * heap) :=
  match p with
  | PLong loc => own_entry MLong m loc 0 o h
  | PShort loc => own_entry MShort m loc 0 o h
  | PFloat loc scal => own_entry MFloat m loc scal o h
  | PCopy => own_copy o h
  end.
Definition own_add (m : Z) (o : object) (h : heap) : option (object * heap) :=
  match pfind m (o_map o) with
  | Some _ => Some (o, h)
  | None => match predefined m with
            | Some p => own_proto m p o h
            | None => Some (o, h)
            end
  end.
(** Rule.cc:235-256, extent: type(), min() and max() of every entry of the map. *)
Definition own_extent (o : object) (h : heap) : option (object * heap) :=
  if o_full o then Some (o, h) else
  if o_bad o then
    obind (omap (fun x => cell h (snd x)) (o_map o)) (fun es =>
    let es := filter (fun e => negb (is_index e)) es in
    Some (mkObject (o_counts o) (o_map o)
            (fold_left (fun a e => Z.min a (e_min e)) es 240)
            (fold_left (fun a e => Z.max a (e_max e)) es 0) false (o_full o), h))
  else Some (o, h).
(** A call per element of a list. *)
Fixpoint own_all {A} (f : A -> object -> heap -> option (object * heap)) (l : list A) (o : object) (h : heap)
  : option (object * heap) :=
  match l with
  | [] => Some (o, h)
  | a :: l => obind (f a o h) (fun x => own_all f l (fst x) (snd x))
  end.
(** Rule.cc:60-98, the constructor from a list of metadata *)
Definition own_new (ms : list Z) (full defaults extras : bool) (h : heap) : option (object * heap) :=
  obind (own_entry MIndex 2 0 0 (mkObject (fun _ => 0) [] 0 0 false full) h) (fun x =>
  obind (own_entry MIndex 1 0 0 (fst x) (snd x)) (fun x =>
  obind (own_all own_add ms (fst x) (snd x)) (fun x =>
  obind (if defaults then own_all own_add default_metas (fst x) (snd x) else Some x) (fun x =>
  obind (if extras then own_all own_add extra_metas (fst x) (snd x) else Some x) (fun x =>
  let o := fst x in
  if full then Some (mkObject (o_counts o) (o_map o) 0 240 false full, snd x)
  else own_extent (mkObject (o_counts o) (o_map o) (o_start o) (o_end o) true full) (snd x)))))).
(** Rule.cc:25-58, the constructor from a map of entries, which takes the
    numbers of the entries as they are.  [count t l]: the number of entries of a type. *)
Definition count (t : mdtype) (l : list (Z * entry)) : Z :=
  Z.of_nat (length (filter (fun x => mdtype_eqb (e_type (snd x)) t) l)).
Definition mapRule (l : list (Z * entry)) (full : bool) : rule :=
  if full then mkRule (fun t => count t l) l 0 240 false full
  else snd (extent (mkRule (fun t => count t l) l 0 0 true full)).
Fixpoint alloc_all (l : list (Z * entry)) (h : heap) : list (Z * Z) * heap :=
  match l with
  | [] => ([], h)
  | (m, e) :: l => let (ps, h') := alloc_all l (alloc e h) in ((m, fresh h) :: ps, h')
  end.
Definition own_map (ps : list (Z * Z)) (full : bool) (h : heap) : option (object * heap) :=
  obind (omap (fun x => obind (cell h (snd x)) (fun e => Some (fst x, e))) ps) (fun l =>
  if full then Some (mkObject (fun t => count t l) ps 0 240 false full, h)
  else own_extent (mkObject (fun t => count t l) ps 0 0 true full) h).
(** Rule.cc:386-421, addRule(const Rule&) *)
Definition own_from (x : Z * Z) (o : object) (h : heap) : option (object * heap) :=
  match pfind (fst x) (o_map o) with
  | Some _ => Some (o, h)
  | None =>
    obind (cell h (snd x)) (fun e =>
    match e_type e with
    | MFloat => own_entry MFloat (fst x) (e_loc e) (e_scal e) o h
    | MLong => own_entry MLong (fst x) (e_loc e) 0 o h
    | MShort => own_entry MShort (fst x) (e_loc e) 0 o h
    | MIndex => own_entry MIndex (fst x) 0 0 o h
    | MCopy => own_copy o h
    end)
  end.
(** Rule.cc:102-107, the destructor *)
Fixpoint own_delete (l : list (Z * Z)) (h : heap) : option heap :=
  match l with
  | [] => Some h
  | (_, a) :: l => obind (free a h) (own_delete l)
  end.

(** A program with any number of rules: what it has made so far, a destroyed
    rule being [None]. *)
Inductive call :=
| New (ms : list Z) (full defaults extras : bool)
| FromMap (l : list (Z * entry)) (full : bool)  (* the entries are allocated for it *)
| Change (i : nat) (c : op)
| AddAll (i j : nat)                            (* addRule(rule j) on rule i *)
| Destroy (i : nat)
| Copy (i : nat).                               (* Rule b = a, the implicit copy constructor *)
Definition world : Type := list (option object) * heap.
Definition live (i : nat) (os : list (option object)) : option object :=
  match nth_error os i with Some (Some o) => Some o | _ => None end.
Fixpoint put {A} (i : nat) (x : A) (l : list A) : list A :=
  match i, l with
  | O, _ :: l => x :: l
  | S i, y :: l => y :: put i x l
  | _, [] => []
  end.
Definition own_op (c : op) : object -> heap -> option (object * heap) :=
  match c with
  | OAdd m => own_add m
  | OLong m loc => own_entry MLong m loc 0
  | OShort m loc => own_entry MShort m loc 0
  | OFloat m loc scal => own_entry MFloat m loc scal
  | OIndex m => own_entry MIndex m 0 0
  | OCopy => own_copy
  | ORm m => own_rm m
  | OExtent => own_extent
  end.
(** A call on a rule that was destroyed is undefined, too. *)
Definition step (w : world) (c : call) : option world :=
  let (os, h) := w in
  match c with
  | New ms full d x => obind (own_new ms full d x h) (fun y => Some (os ++ [Some (fst y)], snd y))
  | FromMap l full =>
    let (ps, h) := alloc_all l h in
    obind (own_map ps full h) (fun y => Some (os ++ [Some (fst y)], snd y))
  | Change i c => obind (live i os) (fun o => obind (own_op c o h) (fun y => Some (put i (Some (fst y)) os, snd y)))
  | AddAll i j =>
    obind (live i os) (fun o => obind (live j os) (fun o2 =>
    obind (own_all own_from (o_map o2) o h) (fun y => Some (put i (Some (fst y)) os, snd y))))
  | Destroy i => obind (live i os) (fun o => obind (own_delete (o_map o) h) (fun h => Some (put i None os, h)))
  | Copy i => obind (live i os) (fun o => Some (os ++ [Some o], h))
  end.
Fixpoint steps (w : world) (cs : list call) : option world :=
  match cs with
  | [] => Some w
  | c :: cs => obind (step w c) (fun w => steps w cs)
  end.
Definition run (cs : list call) : option world := steps ([], no_heap) cs.
