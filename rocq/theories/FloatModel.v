(** IEEE 754 single arithmetic as the model's [exseis::utils::Trace_value]
    (include/ExSeisDat/utils/typedefs.h), using Flocq's executable operations.
    Simplifications: one NaN, no payloads; rounding to nearest even; every
    operation is rounded to single, none is fused. *)
From Flocq Require Import Core IEEE754.BinarySingleNaN.
From Verif Require Import Base.
Open Scope Z_scope.

Definition prec32 : Z := 24.
Definition emax32 : Z := 128.
Definition Hprec32 : Prec_gt_0 prec32 := eq_refl.
Definition Hmax32 : Prec_lt_emax prec32 emax32 := eq_refl.

(** The C++ type [float]. *)
Definition F : Type := binary_float prec32 emax32.
(** [a * b], [a / b], [a + b], [a - b], [std::sqrt(a)], [std::abs(a)] on floats. *)
Definition fmul (a b : F) : F := @Bmult prec32 emax32 Hprec32 Hmax32 mode_NE a b.
Definition fdiv (a b : F) : F := @Bdiv prec32 emax32 Hprec32 Hmax32 mode_NE a b.
Definition fadd (a b : F) : F := @Bplus prec32 emax32 Hprec32 Hmax32 mode_NE a b.
Definition fsub (a b : F) : F := @Bminus prec32 emax32 Hprec32 Hmax32 mode_NE a b.
Definition fsqrt (a : F) : F := @Bsqrt prec32 emax32 Hprec32 Hmax32 mode_NE a.
Definition fabs (a : F) : F := Babs a.
(** [float(z)] for an integer (rounded to nearest). *)
Definition f_of_Z (z : Z) : F := @binary_normalize prec32 emax32 Hprec32 Hmax32 mode_NE z 0 false.
(** Comparisons; false when an argument is NaN. *)
Definition fltb (a b : F) : bool := Bltb a b.
Definition fleb (a b : F) : bool := Bleb a b.
Definition feqb (a b : F) : bool := Beqb a b.
Definition f0 : F := B754_zero false.
Definition f_nan (a : F) : bool := is_nan a.
Definition f_finite (a : F) : bool := is_finite a.
