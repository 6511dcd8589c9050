(** What the output of the minmax program is to hold. *)
From Coq Require Import Reals.
From Verif Require Import Base DataIOModel FileSpec CopySpec.
Import ListNotations.
Open Scope Z_scope.

(** The twelve traces, in order: smallest and largest of source x, source y, receiver x,
    receiver y, midpoint x and midpoint y; the first byte of the field searched. *)
Definition extreme_field (k : Z) : Z := nth (Z.to_nat (k / 2)) [73; 77; 81; 85; 181; 185] 0.
(** Trace n has the smallest ([small]) or the largest coordinate at byte l of nt traces. *)
Definition is_extreme (f : file) (ns nt : Z) (small : bool) (l n : Z) : Prop :=
  0 <= n < nt /\ forall a, 0 <= a < nt ->
    if small then (coordinate (disk_header f ns n) l 71 <= coordinate (disk_header f ns a) l 71)%R
    else (coordinate (disk_header f ns a) l 71 <= coordinate (disk_header f ns n) l 71)%R.
(** Trace k of f' (one sample) stands for trace n of f: numbered n, the single 1.0 as its
    sample, offset, lines and coordinates those of trace n. *)
Record stands_for (f : file) (ns n : Z) (f' : file) (k : Z) : Prop := mkStands {
  sf_number : int32_at (disk_header f' 1 k) 5 = n;
  sf_sample : disk_sample f' 1 k 0 = 1065353216;
  sf_ints : forall l, In l [37; 189; 193] -> int32_at (disk_header f' 1 k) l = int32_at (disk_header f ns n) l;
  sf_coordinates : plain_scale (int16_at (disk_header f ns n) 71) ->
    forall l, In l copied_coordinates -> coordinate (disk_header f' 1 k) l 71 = coordinate (disk_header f ns n) l 71 }.
