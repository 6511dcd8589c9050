(** Machine integers, bytes and small list helpers shared by all the model files. *)
From Coq Require Export List ZArith Lia Bool Arith.
From Coq Require Export ZifyBool ZifyNat ZifyN.
Export ListNotations.
Open Scope Z_scope.

(** [size_t] arithmetic: unsigned 64 bit, wraps modulo 2^64. *)
Definition two64 : Z := 18446744073709551616.
Definition u64 (x : Z) : Z := x mod two64.
(** [uint32_t] conversion. *)
Definition two32 : Z := 4294967296.
Definition u32 (x : Z) : Z := x mod two32.
Definition u16 (x : Z) : Z := x mod 65536.
Definition u8 (x : Z) : Z := x mod 256.
(** Conversions to the signed types (two's complement, as every compiler the
    project supports does). *)
Definition s16 (x : Z) : Z := (x + 32768) mod 65536 - 32768.
Definition s32 (x : Z) : Z := (x + 2147483648) mod two32 - 2147483648.
Definition s64 (x : Z) : Z := (x + 9223372036854775808) mod two64 - 9223372036854775808.

Definition in_u64 (x : Z) : Prop := 0 <= x < two64.
Definition in_s16 (x : Z) : Prop := -32768 <= x <= 32767.
Definition in_s32 (x : Z) : Prop := -2147483648 <= x <= 2147483647.
Definition in_s64 (x : Z) : Prop := -9223372036854775808 <= x <= 9223372036854775807.
Definition is_byte (b : Z) : Prop := 0 <= b < 256.

Definition in_s32b (x : Z) : bool := (-2147483648 <=? x) && (x <=? 2147483647).

(** [0; 1; ...; n-1] as Z. *)
Definition zrange (n : nat) : list Z := map Z.of_nat (seq 0 n).

(** Sum of a list. *)
Definition zsum (l : list Z) : Z := fold_right Z.add 0 l.
Definition nsum (l : list nat) : nat := fold_right Nat.add 0%nat l.

(** Option helpers for computations that may be undefined. *)
Definition obind {A B : Type} (x : option A) (f : A -> option B) : option B :=
  match x with Some a => f a | None => None end.
Fixpoint omap {A B : Type} (f : A -> option B) (l : list A) : option (list B) :=
  match l with
  | [] => Some []
  | a :: r => match f a, omap f r with
              | Some b, Some bs => Some (b :: bs)
              | _, _ => None
              end
  end.
