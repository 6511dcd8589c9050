(** What it means for a double to stand for a number of ten-thousandths, and for that
    number to fit the header at a scale factor. *)
From Coq Require Import Reals.
From Flocq Require Import Core IEEE754.BinarySingleNaN.
From Verif Require Import Base DoubleModel.
Open Scope Z_scope.

(** v is n ten-thousandths: as close as two roundings leave it, and exactly so for
    multiples of a sixteenth. *)
Definition decimal (n : Z) (v : D) : Prop :=
  is_finite v = true /\ (Rabs (B2R v - IZR n / 10000) <= / 2251799813685248 * Rabs (IZR n / 10000))%R /\
  (Z.rem n 625 = 0 -> B2R v = (IZR n / 10000)%R).

(** The scale factors of the header that stand for 1, 1/10, 1/100, 1/1000 and 1/10000,
    and the number of units in one. *)
Definition ok_scale (s : Z) : Prop := s = 1 \/ s = -10 \/ s = -100 \/ s = -1000 \/ s = -10000.
Definition den (s : Z) : Z := if s =? 1 then 1 else - s.
(** n ten-thousandths are a 32-bit number of units of the scale s. *)
Definition fits (n s : Z) : Prop := exists N, N * 10000 = n * den s /\ in_s32 N.
