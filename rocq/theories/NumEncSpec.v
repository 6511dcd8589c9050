(** Independent meaning of the number formats. *)
From Coq Require Import Reals.
From Flocq Require Import Core IEEE754.BinarySingleNaN IEEE754.Bits.
From Verif Require Import Base.

(** Value of a big-endian byte string: most significant byte first. *)
Definition be_value (l : list Z) : Z := fold_left (fun acc b => 256 * acc + b) l 0.

(** IBM System/360 single: sign bit, 7-bit exponent of 16 biased by 64, 24-bit
    fraction.  (The four bytes in big-endian order.) *)
Definition ibm_fraction (b1 b2 b3 : Z) : Z := be_value [b1; b2; b3].
Definition ibm_value (b0 b1 b2 b3 : Z) : R :=
  ((if (128 <=? b0)%Z then -1 else 1) * IZR (ibm_fraction b1 b2 b3)
   * bpow radix2 (4 * (b0 mod 128 - 64) - 24))%R.
(** Normalised: the leading hexadecimal digit of the fraction is not zero. *)
Definition ibm_normalised (b1 : Z) : Prop := 16 <= b1.

(** IEEE 754 single precision, by Flocq's decoder of the 32-bit pattern. *)
Definition float_value (bits : Z) : R := Binary.B2R 24 128 (b32_of_bits bits).
Definition float_is_finite (bits : Z) : bool := Binary.is_finite 24 128 (b32_of_bits bits).
(** Round to nearest, ties to even, in single precision (with subnormals). *)
Definition round_single (x : R) : R := round radix2 (FLT_exp (-149) 24) ZnearestE x.
Definition plus_inf : Z := 2139095040.   (* 0x7F800000 *)
Definition minus_inf : Z := 4286578688.  (* 0xFF800000 *)
