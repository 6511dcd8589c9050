(** What the traces written by examples/exampleCreateFile.c hold. *)
From Coq Require Import Reals.
From Flocq Require Import Core IEEE754.BinarySingleNaN.
From Verif Require Import Base DataIOModel FileSpec SetOpsModel CopySpec CreateSpec.
Open Scope Z_scope.

(** As created_trace, with exact in-line and cross-line numbers. *)
Record created_trace_c (f : file) (ns i : Z) : Prop := mkCreatedC {
  cc_coordinates : forall l c, In (l, c) created_coordinates -> coordinate (disk_header f ns i) l 71 = (IZR c + single (IZR i))%R;
  cc_inline : int32_at (disk_header f ns i) 189 = 2400 + i;
  cc_crossline : int32_at (disk_header f ns i) 193 = 1600 + i;
  cc_number : int32_at (disk_header f ns i) 5 = i;
  cc_offset : int32_at (disk_header f ns i) 37 = 0;
  cc_samples : forall k, 0 <= k < ns ->
    is_finite (dec_f (disk_sample f ns i k)) = true /\ B2R (dec_f (disk_sample f ns i k)) = single (IZR (i * ns + k)) }.
