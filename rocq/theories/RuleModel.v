(** Model of src/Rule.cc and include/ExSeisDat/PIOL/{Rule,RuleEntry,SEGYRuleEntry}.hh.
    Simplifications: pointers to entries are the entries themselves; the
    unordered map is an association list, so its order stands for the
    unspecified iteration order; the five counters are one function. *)
From Verif Require Import Base.

(** RuleEntry.hh: enum class MdType *)
Inductive mdtype := MLong | MShort | MFloat | MIndex | MCopy.
Definition mdtype_eqb (a b : mdtype) : bool :=
  match a, b with
  | MLong, MLong | MShort, MShort | MFloat, MFloat | MIndex, MIndex | MCopy, MCopy => true
  | _, _ => false
  end.
(** RuleEntry.hh and the five classes of SEGYRuleEntry.hh; [e_scal] is only
    meaningful for Float (SEGYRuleEntry.hh:146). *)
Record entry := mkEntry { e_type : mdtype; e_num : Z; e_loc : Z; e_scal : Z }.
(** SEGYRuleEntry.hh: min() and max() of each class. *)
Definition e_min (e : entry) : Z :=
  match e_type e with
  | MLong | MShort => e_loc e
  | MFloat => Z.min (e_scal e) (e_loc e)
  | MIndex | MCopy => 0
  end.
Definition e_max (e : entry) : Z :=
  match e_type e with
  | MLong => e_loc e + 4
  | MShort => e_loc e + 2
  | MFloat => Z.max (e_scal e + 2) (e_loc e + 4)
  | MIndex => 0
  | MCopy => 240
  end.

(** Rule.hh: the fields of Rule. *)
Record rule := mkRule {
  counts : mdtype -> Z;              (* numLong, numShort, numFloat, numIndex, numCopy *)
  translate : list (Z * entry);      (* RuleMap *)
  r_start : Z; r_end : Z; r_bad : bool; r_full : bool }.

(** translate.find *)
Fixpoint lookup (m : Z) (l : list (Z * entry)) : option entry :=
  match l with
  | [] => None
  | (k, e) :: r => if k =? m then Some e else lookup m r
  end.
(** translate.erase *)
Definition erase (m : Z) (l : list (Z * entry)) : list (Z * entry) := filter (fun x => negb (fst x =? m)) l.
(** translate[m] = e *)
Definition assign (m : Z) (e : entry) (l : list (Z * entry)) : list (Z * entry) := (m, e) :: erase m l.
(** ++ and -- of a counter *)
Definition bump (c : mdtype -> Z) (t : mdtype) (d : Z) : mdtype -> Z :=
  fun t' => if mdtype_eqb t' t then c t' + d else c t'.

(** Rule.cc:308-353, rmRule.  The renumbering loop also visits entries in map order. *)
Definition rmRule (m : Z) (r : rule) : rule :=
  match lookup m (translate r) with
  | None => r
  | Some e =>
    mkRule (bump (counts r) (e_type e) (-1))
           (map (fun x => (fst x,
              let t := snd x in
              if mdtype_eqb (e_type t) (e_type e) && (e_num e <? e_num t)
              then mkEntry (e_type t) (e_num t - 1) (e_loc t) (e_scal t) else t))
              (erase m (translate r)))
           (r_start r) (r_end r) (negb (r_full r)) (r_full r)
  end.
(** Rule.cc:252-298: addLong, addShort, addSEGYFloat, addIndex.  addIndex does
    not touch the extent flag (288-296). *)
Definition add_entry (t : mdtype) (m loc scal : Z) (r : rule) : rule :=
  let r := rmRule m r in
  mkRule (bump (counts r) t 1) (assign m (mkEntry t (counts r t) loc scal) (translate r))
         (r_start r) (r_end r)
         (match t with MIndex => r_bad r | _ => negb (r_full r) end) (r_full r).
Definition addLong (m loc : Z) (r : rule) : rule := add_entry MLong m loc 0 r.
Definition addShort (m loc : Z) (r : rule) : rule := add_entry MShort m loc 0 r.
Definition addSEGYFloat (m loc scal : Z) (r : rule) : rule := add_entry MFloat m loc scal r.
Definition addIndex (m : Z) (r : rule) : rule := add_entry MIndex m 0 0 r.
(** Rule.cc:300-306, addCopy; PIOL_META_COPY = 0.  The extent flag is not touched. *)
Definition META_COPY : Z := 0.
Definition addCopy (r : rule) : rule :=
  if counts r MCopy =? 0
  then mkRule (bump (counts r) MCopy 1) (assign META_COPY (mkEntry MCopy 0 0 0) (translate r))
              (r_start r) (r_end r) (r_bad r) (r_full r)
  else r.

(** Meta.h:24-131 and Tr.h: the numbers of the metadata and of the header fields,
    and the switch of Rule.cc:109-221. *)
Inductive proto := PLong (loc : Z) | PShort (loc : Z) | PFloat (loc scal : Z) | PCopy.
Definition predefined (m : Z) : option proto :=
  match m with
  | 18 => Some (PFloat 61 69)    (* WtrDepSrc *)
  | 19 => Some (PFloat 65 69)    (* WtrDepRcv *)
  | 20 => Some (PFloat 73 71)    (* xSrc *)
  | 21 => Some (PFloat 77 71)    (* ySrc *)
  | 22 => Some (PFloat 81 71)    (* xRcv *)
  | 23 => Some (PFloat 85 71)    (* yRcv *)
  | 24 => Some (PFloat 181 71)   (* xCmp *)
  | 25 => Some (PFloat 185 71)   (* yCmp *)
  | 26 => Some (PLong 189)       (* il *)
  | 27 => Some (PLong 193)       (* xl *)
  | 14 => Some (PLong 37)        (* Offset *)
  | 5 => Some (PLong 5)          (* tn *)
  | 0 => Some PCopy              (* COPY *)
  | 3 => Some (PLong 1)          (* tnl *)
  | 4 => Some (PLong 13)         (* tnr *)
  | 6 => Some (PLong 25)         (* tne *)
  | 10 => Some (PLong 17)        (* SrcNum *)
  | 9 => Some (PShort 29)        (* Tic *)
  | 12 => Some (PShort 31)       (* VStack *)
  | 13 => Some (PShort 33)       (* HStack *)
  | 15 => Some (PFloat 41 69)    (* RGElev *)
  | 16 => Some (PFloat 45 69)    (* SSElev *)
  | 17 => Some (PFloat 49 69)    (* SDElev *)
  | 7 => Some (PShort 115)       (* ns *)
  | 8 => Some (PShort 117)       (* inc *)
  | 11 => Some (PFloat 197 201)  (* ShotNum *)
  | 29 => Some (PShort 203)      (* TraceUnit *)
  | 28 => Some (PShort 211)      (* TransUnit *)
  | _ => None
  end.
Definition add_proto (m : Z) (p : proto) (r : rule) : rule :=
  match p with
  | PLong loc => addLong m loc r
  | PShort loc => addShort m loc r
  | PFloat loc scal => addSEGYFloat m loc scal r
  | PCopy => addCopy r
  end.
(** Rule.cc:103-226, addRule(Meta) *)
Definition addRule (m : Z) (r : rule) : bool * rule :=
  match lookup m (translate r) with
  | Some _ => (false, r)
  | None => match predefined m with
            | Some p => (true, add_proto m p r)
            | None => (false, r)
            end
  end.

(** Rule.cc:228-250, extent; updates the cached extent. *)
Definition is_index (e : entry) : bool := mdtype_eqb (e_type e) MIndex.
Definition extent (r : rule) : Z * rule :=
  if r_full r then (240, r) else
  let r := if r_bad r then
      let es := filter (fun e => negb (is_index e)) (map snd (translate r)) in
      mkRule (counts r) (translate r)
             (fold_left (fun a e => Z.min a (e_min e)) es 240)
             (fold_left (fun a e => Z.max a (e_max e)) es 0) false (r_full r)
    else r in
  (u64 (r_end r - r_start r), r).

(** Rule.cc:12-24 *)
Definition default_metas : list Z := [20; 21; 22; 23; 24; 25; 14; 26; 27; 5].
Definition extra_metas : list Z := [3; 4; 6; 10; 9; 12; 13; 15; 16; 17; 7; 8; 11; 29; 28].
(** Rule.cc:58-92: the constructors from a list of metadata.  [gtn = 2], [ltn = 1];
    the uninitialised start, end and badextent are set before any use. *)
Definition empty_rule (full : bool) : rule := mkRule (fun _ => 0) [] 0 0 false full.
Definition newRule (mlist : list Z) (full defaults extras : bool) : rule :=
  let r := addIndex 1 (addIndex 2 (empty_rule full)) in
  let r := fold_left (fun r m => snd (addRule m r)) mlist r in
  let r := if defaults then fold_left (fun r m => snd (addRule m r)) default_metas r else r in
  let r := if extras then fold_left (fun r m => snd (addRule m r)) extra_metas r else r in
  if full then mkRule (counts r) (translate r) 0 240 false full
  else snd (extent (mkRule (counts r) (translate r) (r_start r) (r_end r) true full)).

(** Rule.cc:379-414, addRule(const Rule&) *)
Definition add_from (x : Z * entry) (r : rule) : rule :=
  match lookup (fst x) (translate r) with
  | Some _ => r
  | None =>
    let e := snd x in
    match e_type e with
    | MFloat => addSEGYFloat (fst x) (e_loc e) (e_scal e) r
    | MLong => addLong (fst x) (e_loc e) r
    | MShort => addShort (fst x) (e_loc e) r
    | MIndex => addIndex (fst x) r
    | MCopy => addCopy r
    end
  end.
Definition addRules (r2 r : rule) : rule := fold_left (fun r x => add_from x r) (translate r2) r.

(** Rule.cc:356-359, getEntry.  For missing metadata the map gains a null
    pointer, which every caller dereferences: [None]. *)
Definition getEntry (m : Z) (r : rule) : option entry := lookup m (translate r).

(** Histories of public calls. *)
Inductive op :=
| OAdd (m : Z) | OLong (m loc : Z) | OShort (m loc : Z) | OFloat (m loc scal : Z)
| OIndex (m : Z) | OCopy | ORm (m : Z) | OExtent.
Definition run_op (r : rule) (o : op) : rule :=
  match o with
  | OAdd m => snd (addRule m r)
  | OLong m loc => addLong m loc r
  | OShort m loc => addShort m loc r
  | OFloat m loc scal => addSEGYFloat m loc scal r
  | OIndex m => addIndex m r
  | OCopy => addCopy r
  | ORm m => rmRule m r
  | OExtent => snd (extent r)
  end.
