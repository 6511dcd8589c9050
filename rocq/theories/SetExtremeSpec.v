(** What the extremes of a set of files are. *)
From Coq Require Import Reals.
From Flocq Require Import Core.
From Verif Require Import Base DataIOModel DoubleModel ParamProofs FileModel FileSpec ScalarProofs CopySpec MinMaxModel MultiSortSpec.
Import ListNotations.
Open Scope Z_scope.

(** The coordinate at byte l of trace a of file k. *)
Definition place_of (g : list (reader * file)) (k : nat) (a l : Z) : R :=
  coordinate (disk_header (file_of g k) (r_ns (fst (nth k g no_input))) a) l 71.
Definition traces_in (g : list (reader * file)) (k : nat) : Z := r_nt (fst (nth k g no_input)).
(** A double as close to c as two roundings allow. *)
Definition shows (v : D) (c : R) : Prop := fin v /\ (Rabs (val v - c) <= bpow radix2 (-51) * Rabs c)%R.
(** The pair e of a value and a number gives the smallest ([small]) or the largest of the
    coordinates at byte l: there is a file with this value at the trace of this number, and
    no trace of any file is smaller (larger). *)
Definition set_extreme (g : list (reader * file)) (small : bool) (l : Z) (e : elem) : Prop :=
  exists k, (k < length g)%nat /\ 0 <= snd e < traces_in g k /\ shows (fst e) (place_of g k (snd e) l) /\
  forall k' a, (k' < length g)%nat -> 0 <= a < traces_in g k' ->
    if small then (place_of g k (snd e) l <= place_of g k' a l)%R else (place_of g k' a l <= place_of g k (snd e) l)%R.
