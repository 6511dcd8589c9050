(** IEEE 754 double arithmetic as the model's [exseis::utils::Floating_point]
    (include/ExSeisDat/utils/typedefs.h), using Flocq's executable operations.
    Simplification: one NaN, no payloads.  Rounding is to nearest even. *)
From Flocq Require Import Core IEEE754.BinarySingleNaN.
From Verif Require Import Base.

Definition prec64 : Z := 53.
Definition emax64 : Z := 1024.
Definition Hprec64 : Prec_gt_0 prec64 := eq_refl.
Definition Hmax64 : Prec_lt_emax prec64 emax64 := eq_refl.

(** The C++ type [double]. *)
Definition D : Type := binary_float prec64 emax64.
(** [a * b], [a / b], [a + b], [a - b] on doubles. *)
Definition dmul (a b : D) : D := @Bmult prec64 emax64 Hprec64 Hmax64 mode_NE a b.
Definition ddiv (a b : D) : D := @Bdiv prec64 emax64 Hprec64 Hmax64 mode_NE a b.
Definition dadd (a b : D) : D := @Bplus prec64 emax64 Hprec64 Hmax64 mode_NE a b.
Definition dsub (a b : D) : D := @Bminus prec64 emax64 Hprec64 Hmax64 mode_NE a b.
(** [double(z)] for an integer, and the literal z * 2^e. *)
Definition d_of_Z (z : Z) : D := @binary_normalize prec64 emax64 Hprec64 Hmax64 mode_NE z 0 false.
Definition d_bin (z e : Z) : D := @binary_normalize prec64 emax64 Hprec64 Hmax64 mode_NE z e false.
(** Comparisons; false when an argument is NaN. *)
Definition dltb (a b : D) : bool := Bltb a b.
Definition dleb (a b : D) : bool := Bleb a b.
Definition deqb (a b : D) : bool := Beqb a b.

(** Shift right by n bits, rounding half up (for the magnitude). *)
Definition half_up (m n : Z) : Z := Z.shiftr (m + Z.shiftl 1 (n - 1)) n.
(** Value of [std::lround]/[std::llround]: nearest integer, halves away from
    zero.  [None]: NaN, infinity, or a result that does not fit 64 bits, where
    the C++ result is unspecified. *)
Definition dlround (x : D) : option Z :=
  match x with
  | B754_zero _ => Some 0
  | B754_finite s m e _ =>
    let a := if 0 <=? e then Z.shiftl (Zpos m) e else half_up (Zpos m) (- e) in
    let r := if s then - a else a in
    if (-9223372036854775808 <=? r) && (r <=? 9223372036854775807) then Some r else None
  | _ => None
  end.
(** Conversion of a double to a signed 64-bit integer (truncation); out of
    range and NaN are undefined behaviour. *)
Definition dtrunc (x : D) : option Z :=
  match x with
  | B754_zero _ => Some 0
  | B754_finite s m e _ =>
    let a := if 0 <=? e then Z.shiftl (Zpos m) e else Z.shiftr (Zpos m) (- e) in
    let r := if s then - a else a in
    if (-9223372036854775808 <=? r) && (r <=? 9223372036854775807) then Some r else None
  | _ => None
  end.
(** [std::isnormal] *)
Definition disnormal (x : D) : bool :=
  match x with B754_finite _ m _ _ => Z.shiftl 1 52 <=? Zpos m | _ => false end.
