(** Model of include/ExSeisDat/utils/encoding/number_encoding.hh and
    src/utils/encoding/number_encoding.cc.  Bytes are Z in [0,256); a [float] is
    its 32-bit pattern (Z in [0,2^32)); an undefined shift is [None]. *)
From Verif Require Import Base.

(** number_encoding.hh:156-189, [to_big_endian<T>] with sizeof(T) = n:
    dst[i] = (src >> 8*(n-i-1)) & 0xFF.  [>>] of a negative value is the
    arithmetic shift. *)
Definition to_big_endian (n : nat) (src : Z) : list Z :=
  map (fun i => Z.land (Z.shiftr src (8 * (Z.of_nat n - Z.of_nat i - 1))) 255) (seq 0 n).

(** number_encoding.hh:41-51 with T = int16_t. *)
Definition from_be_int16 (b0 b1 : Z) : Z := s16 (Z.lor (Z.shiftl b0 8) b1).

(** number_encoding.hh:65-76; the or of the four shifted bytes. *)
Definition or4 (b0 b1 b2 b3 : Z) : Z :=
  Z.lor (Z.lor (Z.lor (Z.shiftl b0 24) (Z.shiftl b1 16)) (Z.shiftl b2 8)) b3.
(** T = int32_t (shifting into the sign bit taken as two's complement). *)
Definition from_be_int32 (b0 b1 b2 b3 : Z) : Z := s32 (or4 b0 b1 b2 b3).
(** T = uint32_t *)
Definition from_be_uint32 (b0 b1 b2 b3 : Z) : Z := u32 (or4 b0 b1 b2 b3).
(** number_encoding.hh:88-104, T = float: memcpy of the uint32_t, so the same bits. *)
Definition from_be_float (b0 b1 b2 b3 : Z) : Z := from_be_uint32 b0 b1 b2 b3.
(** number_encoding.hh:203-214, T = float. *)
Definition to_be_float (bits : Z) : list Z := to_big_endian 4 bits.

(** number_encoding.hh:224-233 *)
Record components := mkComp { c_sign : Z; c_exponent : Z; c_significand : Z }.

(** number_encoding.cc:21-29 *)
Definition ibm_bits (big_endian : bool) (b0 b1 b2 b3 : Z) : Z :=
  if big_endian then u32 (or4 b0 b1 b2 b3) else u32 (or4 b3 b2 b1 b0).

(** number_encoding.cc:85 *)
Definition offsets : list Z := [3; 2; 1; 1; 0; 0; 0; 0].

(** number_encoding.cc:17-97 *)
Definition from_IBM (big_endian : bool) (b0 b1 b2 b3 : Z) : components :=
  let bits := ibm_bits big_endian b0 b1 b2 b3 in
  let frac := Z.land bits 16777215 in                       (* 48 *)
  if frac =? 0 then mkComp 0 0 0 else                       (* 49-51 *)
  let sign := Z.land (Z.shiftr bits 31) 1 in                (* 54 *)
  let ibm_exponent_bits := Z.land (Z.shiftr bits 24) 127 in (* 57 *)
  let exp := (ibm_exponent_bits - 64) * 4 in                (* 66 *)
  let leading_frac_bits := Z.shiftr frac 21 in              (* 86 *)
  let shift := nth (Z.to_nat leading_frac_bits) offsets 0 in (* 87 *)
  let shifted_frac := u32 (Z.shiftl frac (8 + shift)) in    (* 89 *)
  mkComp sign (exp - shift) shifted_frac.                   (* 94-96 *)

(** number_encoding.cc:107-159.  A shift of a 32-bit value by 32 or more, or
    by a negative amount, is undefined. *)
Definition rshift_with_rounding (value shift : Z) : option Z :=
  if (shift <? 1) || (32 <=? shift) then None else
  let mask := Z.shiftl 1 shift - 1 in                       (* 114 *)
  let trunc := Z.land value mask in                         (* 117 *)
  let truncated_value := Z.shiftr value shift in            (* 120 *)
  let half := Z.shiftl 1 (shift - 1) in                     (* 142 *)
  Some (if half <? trunc then u32 (truncated_value + 1)     (* 146 *)
        else if trunc =? half then                          (* 149 *)
          if Z.land truncated_value 1 =? 1 then u32 (truncated_value + 1)
          else truncated_value
        else truncated_value).

(** number_encoding.cc:162-260.  The int32_t exponent is not wrapped (from_IBM
    yields exponents between -259 and 252). *)
Definition to_float (c : components) : option Z :=
  let frac := Z.shiftr (c_significand c) 8 in               (* 186 *)
  let exp := c_exponent c + 127 - 1 in                      (* 191 *)
  match (if exp <=? 0                                       (* 218-224 *)
         then match rshift_with_rounding frac (- exp + 1) with
              | Some f => Some (f, 0)
              | None => None
              end
         else Some (frac, exp)) with
  | None => None
  | Some (frac, exp) =>
    let '(frac, exp) := if 255 <=? exp then (0, 255) else (frac, exp) in (* 233-236 *)
    let frac := Z.land frac 8388607 in                      (* 239 *)
    let exp := Z.land exp 255 in                            (* 242 *)
    let sign := u32 (Z.shiftl (c_sign c) 31) in             (* 248 *)
    Some (Z.lor (Z.lor sign (Z.shiftl exp 23)) frac)        (* 251-254 *)
  end.

(** number_encoding.cc:265-274 *)
Definition from_IBM_to_float (big_endian : bool) (b0 b1 b2 b3 : Z) : option Z :=
  to_float (from_IBM big_endian b0 b1 b2 b3).
