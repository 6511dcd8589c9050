(** Sorting: the orders on traces and the nearest-neighbour parallel sort.
    Models /repo/src/sort.cc. *)
From Verif Require Import Base DecompModel DataIOModel RuleModel DoubleModel ParamModel.

(** ---- orders on traces ---- *)
(** The metadata the orders look at.  [g_off] is the offset entry as the code
    reads it, i.e. converted to size_t (sort.cc:151 and its copies). *)
Record geo := mkGeo { g_sx : D; g_sy : D; g_rx : D; g_ry : D; g_il : Z; g_xl : Z; g_off : Z; g_ltn : Z }.
(** getPrm<T> (param_utils.hh:28-50) for T = double, Integer and size_t. *)
Definition asD (v : value) : option D := match v with VF d => Some d | VI z => Some (d_of_Z z) end.
Definition asZ (v : value) : option Z := match v with VF d => dtrunc d | VI z => Some (s64 z) end.
Definition asU (v : value) : option Z := match v with VF d => obind (dtrunc d) (fun z => Some (u64 z)) | VI z => Some (u64 z) end.
(** Meta.h: ltn 1, Offset 14, xSrc 20, ySrc 21, xRcv 22, yRcv 23, il 26, xl 27.
    Simplification: all eight entries are read whatever the order; a rule without
    one of them is undefined here even if the order does not need it. *)
Definition geo_at (p : param) (i : Z) : option geo :=
  obind (obind (getPrm i 20 p) asD) (fun sx => obind (obind (getPrm i 21 p) asD) (fun sy =>
  obind (obind (getPrm i 22 p) asD) (fun rx => obind (obind (getPrm i 23 p) asD) (fun ry =>
  obind (obind (getPrm i 26 p) asZ) (fun il => obind (obind (getPrm i 27 p) asZ) (fun xl =>
  obind (obind (getPrm i 14 p) asU) (fun o => obind (obind (getPrm i 1 p) asZ) (fun ltn =>
  Some (mkGeo sx sy rx ry il xl o ltn))))))))).
(** sort.cc:46-53 *)
Definition off (sx sy rx ry : D) : D := dadd (dmul (dsub sx rx) (dsub sx rx)) (dmul (dsub sy ry) (dsub sy ry)).
(** sort.cc:149-151: the conditional expression has type double in both cases. *)
Definition offset_of (calc : bool) (a : geo) : D := if calc then off (g_sx a) (g_sy a) (g_rx a) (g_ry a) else d_of_Z (g_off a).
(** sort.cc:62-111 *)
Definition lessSrcRcv (a b : geo) : bool :=
  if dltb (g_sx a) (g_sx b) then true else if deqb (g_sx a) (g_sx b) then
  if dltb (g_sy a) (g_sy b) then true else if deqb (g_sy a) (g_sy b) then
  if dltb (g_rx a) (g_rx b) then true else if deqb (g_rx a) (g_rx b) then
  if dltb (g_ry a) (g_ry b) then true else if deqb (g_ry a) (g_ry b) then g_ltn a <? g_ltn b
  else false else false else false else false.
Definition less_off_ltn (calc : bool) (a b : geo) : bool :=
  dltb (offset_of calc a) (offset_of calc b) || (deqb (offset_of calc a) (offset_of calc b) && (g_ltn a <? g_ltn b)).
(** sort.cc:124-171 *)
Definition lessSrcOff (calc : bool) (a b : geo) : bool :=
  if dltb (g_sx a) (g_sx b) then true else if deqb (g_sx a) (g_sx b) then
  if dltb (g_sy a) (g_sy b) then true else if deqb (g_sy a) (g_sy b) then less_off_ltn calc a b
  else false else false.
(** sort.cc:184-231 *)
Definition lessRcvOff (calc : bool) (a b : geo) : bool :=
  if dltb (g_rx a) (g_rx b) then true else if deqb (g_rx a) (g_rx b) then
  if dltb (g_ry a) (g_ry b) then true else if deqb (g_ry a) (g_ry b) then less_off_ltn calc a b
  else false else false.
(** sort.cc:242-296 *)
Definition lessLineOff (calc : bool) (a b : geo) : bool :=
  if g_il a <? g_il b then true else if g_il a =? g_il b then
  if g_xl a <? g_xl b then true else if g_xl a =? g_xl b then less_off_ltn calc a b
  else false else false.
(** sort.cc:309-362 *)
Definition lessOffLine (calc : bool) (a b : geo) : bool :=
  if dltb (offset_of calc a) (offset_of calc b) then true else if deqb (offset_of calc a) (offset_of calc b) then
  if g_il a <? g_il b then true else if g_il a =? g_il b then
  (g_xl a <? g_xl b) || ((g_xl a =? g_xl b) && (g_ltn a <? g_ltn b))
  else false else false.
(** sort.cc:364-396; the numbers are those of SortType.h. *)
Definition getComp (type : Z) : geo -> geo -> bool :=
  if type =? 36 then lessSrcOff true else if type =? 37 then lessSrcOff false
  else if type =? 38 then lessRcvOff true else if type =? 39 then lessRcvOff false
  else if type =? 40 then lessLineOff true else if type =? 41 then lessLineOff false
  else if type =? 42 then lessOffLine true else if type =? 43 then lessOffLine false
  else lessSrcRcv.

(** sort.cc:403-420, checkOrder on one rank, for the metadata of its traces. *)
Fixpoint checkOrder {A} (comp : A -> A -> bool) (l : list A) : bool :=
  match l with
  | a :: (b :: _) as r => if comp a b then checkOrder comp r else false
  | _ => true
  end.

(** ---- std::sort ---- *)
(** A sort function: an order and a list.  Which one the C++ library has is not
    known; the theorems hold for every one that keeps the contract [std_sort] of
    SortSpec.v. *)
Definition sorter := forall A : Type, (A -> A -> bool) -> list A -> list A.
(** sort.cc:29-37 *)
Definition getSortIndex (srt : sorter) (l : list Z) : list nat :=
  srt nat (fun s1 s2 => nth s1 l 0 <? nth s2 l 0) (seq 0 (length l)).

(** ---- the parallel sort ---- *)
(** The vectors of the p ranks are a function of the rank. *)
(** sort.cc:524-561 (and 789-862 for metadata): the first R elements go to the end
    of the left neighbour's vector. *)
Definition sendLeft {A} (p R : nat) (t : nat -> list A) (r : nat) : list A :=
  if Nat.eqb r (p - 1) then t r else firstn (length (t r) - R) (t r) ++ firstn R (t (S r)).
(** sort.cc:476-514 (and 703-780): the last R elements go to the start of the right
    neighbour's vector. *)
Definition sendRight {A} (R : nat) (t : nat -> list A) (r : nat) : list A :=
  if Nat.eqb r 0 then t r else skipn (length (t (r - 1)%nat) - R) (t (r - 1)%nat) ++ skipn R (t r).
(** sort.cc:583-584, 874-875 *)
Definition edge1 (R r : nat) : nat := if Nat.eqb r 0 then 0%nat else R.
Definition edge2 (p R r : nat) : nat := if Nat.eqb r (p - 1) then 0%nat else R.
(** sort.cc:602-610, 896-912: sort from edge1 to the end. *)
Definition sortTail {A} (s : list A -> list A) (e : nat) (l : list A) : list A := firstn e l ++ s (skipn e l).
(** sort.cc:614-621, 916-932: sort from the start to the end less edge2. *)
Definition sortHead {A} (s : list A -> list A) (e : nat) (l : list A) : list A := s (firstn (length l - e) l) ++ skipn (length l - e) l.
(** One turn of the loop, sort.cc:600-621, 894-932. *)
Definition round {A} (s : list A -> list A) (p R : nat) (t : nat -> list A) : nat -> list A :=
  let t1 := fun r => sortTail s (edge1 R r) (sendLeft p R t r) in
  fun r => sortHead s (edge2 p R r) (sendRight R t1 r).
(** sort.cc:623-626, 934-945: does a rank see a change in its first lnt elements? *)
Fixpoint differs {A} (neq : A -> A -> bool) (l l' : list A) : bool :=
  match l, l' with a :: l, b :: l' => neq a b || differs neq l l' | _, _ => false end.
(** The vectors of the p ranks, computed once (no counterpart in the code). *)
Definition tabulate {A} (p : nat) (t : nat -> list A) : nat -> list A :=
  let l := map t (seq 0 p) in fun r => nth r l [].
(** sort.cc:598-643, 892-962; [None]: more than [fuel] turns. *)
Fixpoint sort_loop {A} (fuel : nat) (s : list A -> list A) (neq : A -> A -> bool) (p R : nat) (lnt : nat -> nat) (t : nat -> list A) : option (nat -> list A) :=
  match fuel with
  | O => None
  | S n => let t' := tabulate p (round s p R t) in
           if existsb (fun r => differs neq (firstn (lnt r) (t' r)) (firstn (lnt r) (t r))) (seq 0 p)
           then sort_loop n s neq p R lnt t' else Some t'
  end.
(** sort.cc:573-648 and 868-967.  [zero] fills the new vectors.  Simplification:
    the metadata version sorts the rows of a Param, here the elements of a list;
    its rows are compared by their global trace numbers only ([neq]). *)
Definition nn_sort {A} (fuel : nat) (srt : sorter) (comp neq : A -> A -> bool) (zero : A) (p R : nat) (dat : nat -> list A) : option (nat -> list A) :=
  let s := srt A comp in
  let lnt := fun r => length (dat r) in
  let t := fun r => s (dat r) ++ repeat zero (edge2 p R r) in
  if Nat.ltb 1 p
  then obind (sort_loop fuel s neq p R lnt t) (fun t' => Some (fun r => firstn (lnt r) (t' r)))
  else Some (fun r => firstn (lnt r) (t r)).
(** CommunicatorMPI.cc:216-223 (min over the ranks) and sort.cc:658, 873. *)
Definition min_len {A} (p : nat) (dat : nat -> list A) : nat :=
  fold_left (fun m r => Nat.min m (length (dat r))) (seq 1 (p - 1)) (length (dat 0%nat)).
Definition regionSz {A} (p : nat) (dat : nat -> list A) : nat := Nat.div (min_len p dat) 4.
(** std::pair's operator<, used when comp is null (sort.cc:592). *)
Definition pair_lt (a b : Z * Z) : bool := (fst a <? fst b) || (negb (fst b <? fst a) && (snd a <? snd b)).
Definition pair_neq (a b : Z * Z) : bool := negb ((fst a =? fst b) && (snd a =? snd b)).
(** Sum of the lengths on lower ranks (CommunicatorMPI.cc:225-232). *)
Definition rank_off {A} (dat : nat -> list A) (r : nat) : Z := fold_left (fun s q => s + Z.of_nat (length (dat q))) (seq 0 r) 0.
(** sort.cc:655-694 *)
Definition sort_list (fuel : nat) (srt : sorter) (p : nat) (l : nat -> list Z) : option (nat -> list Z) :=
  let plist := fun r => List.combine (l r) (map (fun i => rank_off l r + Z.of_nat i) (seq 0 (length (l r)))) in
  obind (nn_sort fuel srt pair_lt pair_neq (0, 0) p (regionSz p l) plist) (fun out => Some (fun r => map snd (out r))).
(** sort.cc:969-980 with FileOrder; [gtn] is the global trace number of a trace. *)
Definition sort_metadata {A} (fuel fuel2 : nat) (srt : sorter) (comp : A -> A -> bool) (gtn : A -> Z) (zero : A) (p : nat) (prm : nat -> list A)
    : option ((nat -> list A) * (nat -> list Z)) :=
  obind (nn_sort fuel srt comp (fun a b => negb (gtn a =? gtn b)) zero p (regionSz p prm) prm) (fun out =>
  obind (sort_list fuel2 srt p (fun r => map gtn (out r))) (fun l => Some (out, l))).

(** Flow/Set.cc:71-76: the numbers in its file of the traces rank r takes from a
    file of nt traces (first number and how many). *)
Definition ilst (p r nt : Z) : option piece := block_decomposition nt p r.
(** Flow/Cache.cc:33-50: the (gtn, ltn) rank r gives to its traces of all files of
    the group; [off]: traces on lower ranks, [loff]: traces of earlier files on
    this rank, [c]: number of the file, [nf]: number of files. *)
Fixpoint cache_numbers (off loff c nf : Z) (pcs : list piece) : list (Z * Z) :=
  match pcs with
  | [] => []
  | pc :: r => map (fun i => (off + loff + (global_offset pc + i), (global_offset pc + i) * nf + c)) (zr (local_size pc)) ++
               cache_numbers off (loff + local_size pc) (c + 1) nf r
  end.
Definition ilsts (p r : Z) (nts : list Z) : list piece :=
  map (fun nt => match ilst p r nt with Some pc => pc | None => mkPiece 0 0 end) nts.
Definition cache_lnt (p r : Z) (nts : list Z) : Z := zsum (map local_size (ilsts p r nts)).
Definition cache (p : nat) (nts : list Z) (r : nat) : list (Z * Z) :=
  cache_numbers (zsum (map (fun q => cache_lnt (Z.of_nat p) (Z.of_nat q) nts) (seq 0 r))) 0 0 (Z.of_nat (length nts)) (ilsts (Z.of_nat p) (Z.of_nat r) nts).
