(** Workflows on sets of files.  Models /repo/src/Flow/Set.cc. *)
From Coq Require Import String Ascii DecimalString.
From Coq Require Decimal DecimalN.
From Verif Require Import Base DecompModel DataIOModel SortModel.
Import ListNotations.
Open Scope Z_scope.

(** ---- adding files ---- *)
(** The key of a group of files: number of samples and sampling interval (its bits).
    Simplification: intervals that are NaN or negative zero are left out. *)
Definition gkey : Type := (Z * Z)%type.
Definition gkeqb (a b : gkey) : bool := (fst a =? fst b) && (snd a =? snd b).
(** FileDesc: the local part of a file: the traces to read and where they go. *)
Record fdesc := mkFd { f_key : gkey; f_nt : Z; f_ilst : list Z; f_olst : list Z }.
(** Set.cc:65-85 on rank r of p; the state is the list of files and offmap. *)
Definition add_file (p r : Z) (s : list fdesc * (gkey -> Z)) (f : gkey * Z) : list fdesc * (gkey -> Z) :=
  let '(fs, offmap) := s in
  let '(k, nt) := f in
  match block_decomposition nt p r with
  | None => s
  | Some dec =>
    let off := offmap k in
    (fs ++ [mkFd k nt (map (fun i => u64 (global_offset dec + i)) (zr (local_size dec)))
                      (map (fun i => u64 (off + global_offset dec + i)) (zr (local_size dec)))],
     fun k' => if gkeqb k' k then u64 (off + nt) else offmap k')
  end.
Definition add_files (p r : Z) (fl : list (gkey * Z)) : list fdesc := fst (fold_left (add_file p r) fl ([], fun _ => 0)).
(** The files of one group, in the order of fmap[key]. *)
Definition group (k : gkey) (fs : list fdesc) : list fdesc := filter (fun f => gkeqb (f_key f) k) fs.

(** ---- startSingle ---- *)
(** Set.cc:203-207: the number of traces in a block; [pm] is rule->paramMem(). *)
Definition max_block (ns pm : Z) : Z := 1073741824 / u64 (40 + (240 + 4 * ns) + 2 * pm + 2 * (4 * ns)).
(** Set.cc:218-219: start and length of the blocks of lnt traces *)
Fixpoint block_loop (fuel max lnt i : nat) : list (nat * nat) :=
  match fuel with
  | O => []
  | S fuel => if Nat.ltb i lnt then (i, if Nat.ltb (i + max) lnt then max else (lnt - i)%nat) :: block_loop fuel max lnt (i + max) else []
  end.
Definition block_list (max lnt : nat) : list (nat * nat) := block_loop (S lnt) max lnt 0.
(** Set.cc:214-217 *)
Definition ceil_div (n max : nat) : nat := (n / max + (if Nat.ltb 0 (n mod max) then 1 else 0))%nat.
Definition extra_blocks (max biggest lnt : nat) : nat := (ceil_div biggest max - ceil_div lnt max)%nat.
(** Set.cc:228-245: one block: which trace is read and where it is written, in the
    order of the write call; [srt] is std::sort of getSortIndex (sort.cc:29-37). *)
Definition block_moves (srt : forall A : Type, (A -> A -> bool) -> list A -> list A) (ilst olst : list Z) (b : nat * nat) : list (Z * Z) :=
  let '(i, n) := b in
  let idx := srt nat (fun s1 s2 => nth (i + s1) olst 0 <? nth (i + s2) olst 0) (seq 0 n) in
  map (fun s => (nth (i + s) ilst 0, nth (i + s) olst 0)) idx.
(** Set.cc:209-265: the write calls of a file: one per block, then the empty ones that
    keep the ranks together; [biggest] is the largest local count over the ranks. *)
Definition file_calls srt (max biggest : nat) (f : fdesc) : list (list (Z * Z)) :=
  let lnt := length (f_ilst f) in
  map (block_moves srt (f_ilst f) (f_olst f)) (block_list max lnt) ++ repeat [] (extra_blocks max biggest lnt).

(** ---- output names ---- *)
(** std::to_string(size_t) *)
Definition dec_string (z : Z) : string := NilZero.string_of_uint (N.to_uint (Z.to_N z)).
(** Set.cc:186-192; [show] is std::to_string(double). *)
Definition out_name (show : Z -> string) (outfix : string) (k : gkey) (files : nat) : string :=
  (if Nat.eqb files 1 then outfix ++ ".segy" else outfix ++ dec_string (fst k) ++ "_" ++ show (snd k) ++ ".segy")%string.

(** ---- chains of operations ---- *)
Inductive kind := KSubset | KGather | KSingle | KOther.
Definition kindeqb (a b : kind) : bool := match a, b with KSubset, KSubset | KGather, KGather | KSingle, KSingle | KOther, KOther => true | _, _ => false end.
(** An operation: its kind, and what it does to a block of traces.  For a subset
    operation (a sort) [act] is the reordering of the whole group. *)
Record op (B : Type) := mkOp { o_kind : kind; o_act : B -> B }.
Arguments mkOp {B} _ _. Arguments o_kind {B} _. Arguments o_act {B} _ _.
(** Set.cc:140-169.  [None]: the end of the list is dereferenced (line 160). *)
Fixpoint calc {B} (type : kind) (ops : list (op B)) (b : B) : option B :=
  match ops with
  | [] => Some b
  | o :: rest =>
    if negb (kindeqb (o_kind o) type) then Some b else
    match type with
    | KGather =>
      let b := o_act o b in
      match rest with
      | [] => None
      | o2 :: rest2 => if kindeqb (o_kind o2) KSingle then calc KSingle rest2 (o_act o2 b) else calc KGather rest2 b
      end
    | KSingle => calc KSingle rest (o_act o b)
    | _ => calc type rest b
    end
  end.
(** What the set holds: its traces as stored in its files, the order the last sort
    asked for, and whether it consists of one file only.  Simplification: one group. *)
Record wset (B : Type) := mkWset { w_one : bool; w_data : B; w_ord : B -> B }.
Arguments mkWset {B} _ _ _. Arguments w_one {B} _. Arguments w_data {B} _. Arguments w_ord {B} _ _.
(** Set.cc:401-434: a sort replaces the output positions; it works on the cached
    parameters, which are in the order of the files. *)
Fixpoint subsets {B} (ops : list (op B)) (w : wset B) : list (op B) * wset B :=
  match ops with
  | [] => ([], w)
  | o :: rest => if kindeqb (o_kind o) KSubset then subsets rest (mkWset (w_one w) (w_data w) (o_act o)) else (ops, w)
  end.
Fixpoint skip_gathers {B} (ops : list (op B)) : list (op B) :=
  match ops with [] => [] | o :: rest => if kindeqb (o_kind o) KGather then skip_gathers rest else ops end.
(** Set.cc:270-398: several files are first merged into one (lines 273-292), a single
    file is read as it is stored; afterwards the set is the file just written. *)
Definition startGather {B} (ops : list (op B)) (w : wset B) : option B :=
  calc KGather ops (if w_one w then w_data w else w_ord w (w_data w)).
(** Set.cc:452-500: are names returned, and what was written under the output name
    last ([None]: nothing); the outer [None] is undefined behaviour. *)
Fixpoint top {B} (fuel : nat) (ops : list (op B)) (w : wset B) : option (bool * option B) :=
  match fuel with
  | O => Some (false, None)
  | S fuel =>
    match ops with
    | [] => Some (false, None)
    | o :: rest0 =>
      match o_kind o with
      | KSubset => let '(rest, w') := subsets ops w in obind (top fuel rest w') (fun r => Some (false, snd r))
      | KGather =>
        obind (startGather ops w) (fun g =>
          match skip_gathers ops with
          | [] => Some (true, Some g)
          | rest => obind (top fuel rest (mkWset true g (fun b => b))) (fun r => Some (false, snd r))
          end)
      | KSingle => obind (calc KSingle ops (w_ord w (w_data w))) (fun b => Some (true, Some b))
      | KOther => obind (top fuel rest0 w) (fun r => Some (false, snd r))
      end
    end
  end.
(** Set.cc:502-515: output appends an operation that does nothing. *)
Definition set_output {B} (ops : list (op B)) (w : wset B) : option (bool * option B) :=
  let l := ops ++ [mkOp KSingle (fun b => b)] in top (S (length l)) l w.
