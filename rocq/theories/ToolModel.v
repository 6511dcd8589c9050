(** The programs of /repo/util that write whole files: filemake (contents of the file),
    minmax, and the input and output of fourdbin (util/4dio.cc, util/fourdbin.cc). *)
From Flocq Require Import IEEE754.BinarySingleNaN.
From Verif Require Import Base DecompModel DataIOModel FloatModel SortModel FlowModel UtilModel.
Import ListNotations.
Open Scope Z_scope.

(** ---- filemake ---- *)
(** util/filemake.cc:28-29 and 69-70 (fhalf, off).  Simplification: the code divides in
    double and rounds to float, which gives the same value. *)
Definition fm_half (nt ns : Z) : F := fdiv (f_of_Z (u64 (nt * ns))) (f_of_Z 2).
Definition fm_off (nt ns : Z) : F := fdiv (f_of_Z (u64 (nt * ns))) (f_of_Z 4).
(** util/filemake.cc:50-51 and 115-116: the sample at index i. *)
Definition fm_sample (nt ns i : Z) : F :=
  fsub (fsub (fm_half nt ns) (fabs (fadd (Bopp (fm_half nt ns)) (f_of_Z i)))) (fm_off nt ns).
(** util/filemake.cc:37 and 103: k, from which every coordinate of trace t is made
    (lines 38-45: a constant plus k).  Simplification: no overflow of long. *)
Definition fm_key (nt t : Z) : F := f_of_Z (nt / 2 - Z.abs (- (nt / 2) + s64 t)).
(** What is stored for a trace: samples, k and its number (PIOL_META_tn). *)
Definition made : Type := (list F * F * Z)%type.
(** util/filemake.cc:33-55, the traces rank writes and where; [max] is the batch size. *)
Definition contig_writes (nt ns : Z) (max : nat) (offset lnt : Z) : list (Z * made) :=
  flat_map (fun b => let i := Z.of_nat (fst b) in
    map (fun j => let t := u64 (offset + i + j) in
      (t, (map (fun s => fm_sample nt ns (u64 (u64 (offset + i) * ns + (j * ns + s)))) (zr ns), fm_key nt t, t)))
      (zr (Z.of_nat (snd b))))
    (block_list max (Z.to_nat lnt)).
(** util/filemake.cc:97-120, with the offsets of the rank as worked out in lines 72-95
    (UtilModel.random_offsets). *)
Definition random_writes (nt ns : Z) (max : nat) (offs : list Z) : list (Z * made) :=
  flat_map (fun b => let i := fst b in
    map (fun j => let t := nth (i + Z.to_nat j) offs 0 in
      (t, (map (fun s => fm_sample nt ns (u64 (nth i offs 0 * ns + (j * ns + s)))) (zr ns), fm_key nt t, t)))
      (zr (Z.of_nat (snd b))))
    (block_list max (length offs)).
(** util/filemake.cc:171: traces per batch for [mem] bytes. *)
Definition fm_max (mem ns : Z) : Z := mem / u64 (240 + 4 * ns + 4 * ns + 8).

(** ---- minmax ---- *)
(** std::unique on neighbours. *)
Fixpoint uniq (l : list Z) : list Z :=
  match l with a :: (b :: _) as r => if a =? b then uniq r else a :: uniq r | _ => l end.
(** util/minmax.cc:52-62 *)
Definition uniqlist (srt : sorter) (nums : list Z) : list Z := uniq (srt Z Z.ltb nums).
(** util/minmax.cc:64-79 on rank 0: row j of tprm is read from trace uniqlist[j] (line
    65); row i of oprm is the first row of tprm whose number is that of extreme i.  A
    row without one keeps the zero row. *)
Fixpoint find_row {A} (us : list Z) (rows : list A) (n : Z) : option A :=
  match us, rows with u :: us, a :: rows => if n =? u then Some a else find_row us rows n | _, _ => None end.
Definition minmax_rows {A} (srt : sorter) (data : Z -> A) (nums : list Z) : list (option A * Z) :=
  let us := uniqlist srt nums in
  let tprm := map data us in
  map (fun n => (find_row us tprm n, n)) nums.

(** ---- fourdbin: reading the coordinates ---- *)
(** util/4dio.cc:56-59: the rule holds gtn, ltn and xSrc (24 bytes). *)
Definition gc_memlim (biggest : Z) : Z := u64 (2147483648 - u64 (32 * biggest)).
Definition gc_max1 (biggest : Z) : Z := gc_memlim biggest / 264.
(** util/4dio.cc:119-120: gtn, ltn, four coordinates and possibly two lines, plus 240 + 16. *)
Definition gc_max2 (ixline : bool) (biggest : Z) : Z := gc_memlim biggest / (if ixline then 320 else 304).
Definition zceil (n max : Z) : Z := n / max + (if 0 <? n mod max then 1 else 0).
(** util/4dio.cc:65-66 *)
Definition gc_extra (biggest lnt : Z) : Z := u64 (zceil biggest (gc_max1 biggest) - zceil lnt (gc_max1 biggest)).
(** The collective calls a rank makes in the loops at lines 69-83 and at lines 122-164.
    [None]: division by zero. *)
Definition loop_calls (max lnt : Z) : Z := Z.of_nat (length (block_list (Z.to_nat max) (Z.to_nat lnt))).
Definition gc_calls1 (biggest lnt : Z) : option Z :=
  if gc_max1 biggest =? 0 then None else Some (loop_calls (gc_max1 biggest) lnt + gc_extra biggest lnt).
Definition gc_calls2 (ixline : bool) (biggest lnt : Z) : option Z :=
  if gc_max1 biggest =? 0 then None else Some (loop_calls (gc_max2 ixline biggest) lnt + gc_extra biggest lnt).
(** util/4dio.cc:123-158: one pass of the loop: the traces read, and the entries of the
    coordinate arrays filled: index, trace it is filled from, trace number stored. *)
Definition gc_block (srt : sorter) (trlist : list Z) (b : nat * nat) : list Z * list (nat * Z * Z) :=
  let orig := getSortIndex srt (firstn (snd b) (skipn (fst b) trlist)) in
  let sortlist := map (fun o => nth (fst b + o) trlist 0) orig in
  (sortlist, map (fun os => ((fst b + fst os)%nat, snd os, nth (fst b + fst os) trlist 0)) (List.combine orig sortlist)).

(** ---- fourdbin: writing the matches ---- *)
(** util/fourdbin.cc:128-134: number of the trace of file 1, of its match in file 2,
    and their distance. *)
Definition match_ : Type := (Z * Z * F)%type.
Definition kept (dsrmax : F) (ms : list match_) : list match_ := filter (fun m => fleb (snd m) dsrmax) ms.
(** util/4dio.cc:188-229: rank r of the ranks' lists. *)
Definition out_offset {A} (ls : list (list A)) (r : nat) : nat := Base.nsum (map (@length A) (firstn r ls)).
Definition out_biggest {A} (ls : list (list A)) : nat := fold_left Nat.max (map (@length A) ls) 0%nat.
(** util/4dio.cc:231-250: the write calls of a rank: where each trace goes; the reads
    before them fetch the same traces (ReadSEGY::readTraceNonMonotonic). *)
Definition out_calls {A} (max : nat) (ls : list (list A)) (r : nat) : list (list (nat * A)) :=
  let l := nth r ls [] in
  map (fun b => List.combine (seq (out_offset ls r + fst b) (snd b)) (firstn (snd b) (skipn (fst b) l))) (block_list max (length l))
  ++ repeat [] (extra_blocks max (out_biggest ls) (length l)).
(** util/4dio.cc:198-200: ns samples, [ext] the extent of the rule. *)
Definition out_max (ns ext : Z) : Z := 1073741824 / u64 (4 * (240 + 4 * ns) + 4 * ext).
