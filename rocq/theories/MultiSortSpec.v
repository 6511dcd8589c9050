(** What sorting several files into one is to do. *)
From Coq Require Import Reals.
From Verif Require Import Base DataIOModel DoubleModel FileModel FileSpec SortModel CopySpec SetSortSpec.
Import ListNotations.
Open Scope Z_scope.

(** Every trace of the files, as (file, number in the file); [nts]: the numbers of traces. *)
Fixpoint traces_from (k : nat) (nts : list Z) : list (nat * Z) :=
  match nts with [] => [] | n :: nts => map (pair k) (zr n) ++ traces_from (S k) nts end.
Definition every_trace : list Z -> list (nat * Z) := traces_from 0.
(** File k of the group. *)
Definition no_input : reader * file := (mkR 0 0 (d_of_Z 0) 0 [], mkFile 0 (fun _ => 0)).
Definition file_of (g : list (reader * file)) (k : nat) : file := snd (nth k g no_input).
(** What the orders see of a trace; the last key counts the traces of all files in turn:
    trace 0 of every file, trace 1 of every file, ... *)
Definition trace_geo (g : list (reader * file)) (ns : Z) (x : nat * Z) : geo :=
  header_geo (disk_header (file_of g (fst x)) ns (snd x)) (snd x * Z.of_nat (length g) + Z.of_nat (fst x)).
(** The first number that orders 35 to 41 compare. *)
Definition lead (type : Z) (h : Z -> Z) : R :=
  if type <=? 37 then coordinate h 73 71 else if type <=? 39 then coordinate h 81 71 else IZR (int32_at h 189).
