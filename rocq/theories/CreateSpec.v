(** What a file made by examples/exampleCreateFile.cc has to hold. *)
From Coq Require Import Reals.
From Flocq Require Import Core IEEE754.BinarySingleNaN.
From Verif Require Import Base DataIOModel FileSpec SetOpsModel CopySpec.
Import ListNotations.
Open Scope Z_scope.

(** The single precision number nearest to x (ties to even). *)
Definition single (x : R) : R := round radix2 (FLT_exp (-149) 24) ZnearestE x.
(** The coordinate fields and what is added to the trace number in them: source, receiver
    and midpoint. *)
Definition created_coordinates : list (Z * Z) := [(73, 1600); (77, 2400); (81, 100000); (85, 3000000); (181, 10000); (185, 4000)].
(** Trace i of a file of traces of ns samples is as the example promises: coordinates that
    grow with the trace number, in-line and cross-line numbers, the trace number itself, no
    offset; sample k counts the samples of the file. *)
Record created_trace (f : file) (ns i : Z) : Prop := mkCreated {
  ct_coordinates : forall l c, In (l, c) created_coordinates -> coordinate (disk_header f ns i) l 71 = (IZR c + single (IZR i))%R;
  ct_inline : IZR (int32_at (disk_header f ns i) 189) = single (2400 + single (IZR i));
  ct_crossline : IZR (int32_at (disk_header f ns i) 193) = single (1600 + single (IZR i));
  ct_number : int32_at (disk_header f ns i) 5 = i;
  ct_offset : int32_at (disk_header f ns i) 37 = 0;
  ct_samples : forall k, 0 <= k < ns ->
    is_finite (dec_f (disk_sample f ns i k)) = true /\ B2R (dec_f (disk_sample f ns i k)) = single (IZR (i * ns + k)) }.
