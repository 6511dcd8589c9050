(** What a filter is, and arithmetic without rounding. *)
From Coq Require Import Reals.
From Coquelicot Require Import Complex.
From Verif Require Import Base DataIOModel FloatModel SignalModel FilterModel.
Import ListNotations.
Open Scope Z_scope.

(** The arithmetic of the real and complex numbers; the square root of complex numbers
    is an argument, any function with [csqrt z * csqrt z = z] will do. *)
Definition exact_arith (csqrt : C -> C) : arith :=
  {| tv := R; cv := C; t_of_Z := IZR; t_add := Rplus; t_sub := Rminus; t_mul := Rmult; t_div := Rdiv; t_sqrt := sqrt;
     t_tan := tan; t_pow := fun x n => (x ^ Z.to_nat n)%R; t_pi := PI; t_zero := fun x => if Req_EM_T x 0 then true else false;
     c_make := fun a b => (a, b); c_re := Re; c_im := Im; c_add := Cplus; c_sub := Cminus; c_mul := Cmult; c_div := Cdiv;
     c_neg := Copp; c_sqrt := csqrt; c_exp := fun z => (exp (fst z) * cos (snd z), exp (fst z) * sin (snd z))%R |}.
Definition is_sqrt (csqrt : C -> C) : Prop := forall z, Cmult (csqrt z) (csqrt z) = z.

(** b0 + b1 u + b2 u^2 + ...: what the coefficients b do to the oscillation whose value
    one sample earlier is u times the present one.  u = 1 is the constant signal, u = -1
    the fastest oscillation samples can show (the Nyquist frequency). *)
Fixpoint response (b : list R) (u : C) : C := match b with [] => RtoC 0 | c :: b => Cplus (RtoC c) (Cmult u (response b u)) end.
(** The factor by which the recursive filter b / a amplifies that oscillation. *)
Definition gain (b a : list R) (u : C) : C := Cdiv (response b u) (response a u).
(** The filter is stable if its denominator has no zero in the closed unit disc. *)
Definition stable (a : list R) : Prop := forall u, (Cmod u <= 1)%R -> response a u <> RtoC 0.

(** The product of x - c over the list. *)
Fixpoint root_product (cs : list C) (x : C) : C := match cs with [] => RtoC 1 | c :: cs => Cmult (Cminus x c) (root_product cs x) end.
(** The value at x of the polynomial with the given coefficients, constant first. *)
Fixpoint poly_at (v : list C) (x : C) : C := match v with [] => RtoC 0 | c :: v => Cplus c (Cmult x (poly_at v x)) end.
(** The oscillation of frequency f sampled fs times a second, one sample earlier. *)
Definition osc (fs f : R) : C := (cos (2 * PI * f / fs), - sin (2 * PI * f / fs))%R.
(** The frequency as the bilinear transform sees it. *)
Definition tn (fs f : R) : R := tan (PI * f / fs).
(** The corners make_filter is meant for. *)
Definition corners_ok (type : flt_type) (fs cf1 cf2 : R) : Prop :=
  match type with Lowpass | Highpass => (0 < cf1 < fs / 2)%R | Bandpass | Bandstop => (0 < cf1 < cf2)%R /\ (cf2 < fs / 2)%R end.
(** |gain|^2 of Butterworth's filter of order N, with t, t1, t2 the transformed frequencies. *)
Definition butterworth (type : flt_type) (N : Z) (t1 t2 t : R) : R :=
  let sq x := (x ^ Z.to_nat (2 * N))%R in
  match type with
  | Lowpass => 1 / (1 + sq (t / t1))%R
  | Highpass => sq (t / t1) / (1 + sq (t / t1))
  | Bandpass => sq ((t2 - t1) * t) / (sq ((t2 - t1) * t) + sq (t1 * t2 - t * t))
  | Bandstop => sq (t1 * t2 - t * t) / (sq ((t2 - t1) * t) + sq (t1 * t2 - t * t))
  end%R.
(** What must come out at frequency zero and at the Nyquist frequency. *)
Definition passes_dc (type : flt_type) : bool := match type with Lowpass | Bandstop => true | Highpass | Bandpass => false end.
Definition passes_nyquist (type : flt_type) : bool := match type with Highpass | Bandstop => true | Lowpass | Bandpass => false end.
(** ---- applying a filter ---- *)
Definition at_ (l : list R) (i : Z) : R := nth (Z.to_nat i) l 0%R.
Fixpoint sum_to (n : nat) (f : Z -> R) : R := match n with O => 0%R | S n => (sum_to n f + f (Z.of_nat n))%R end.
(** c_0 v_i + c_1 v_(i-1) + ... + c_m v_(i-m) *)
Definition conv (c v : list R) (i m : Z) : R := sum_to (Z.to_nat (m + 1)) (fun j => at_ c j * at_ v (i - j))%R.
(** y is the filter's answer to x: at every sample the past outputs weighted by a add up
    to the past inputs weighted by b; the first N outputs also get an initial value. *)
Definition answers (N : Z) (b a x zi y : list R) : Prop :=
  zlen y = zlen x /\ forall i, 0 <= i < zlen x -> conv a y i (Z.min i N) = (conv b x i (Z.min i N) + (if i <? N then at_ zi i else 0))%R.
Definition total (l : list R) : R := fold_right Rplus 0%R l.
