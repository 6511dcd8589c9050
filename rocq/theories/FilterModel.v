(** src/temporalfilter.cc: building the filter and applying it in the time domain.

    The model is written over a record of arithmetic operations, because two questions
    are asked of it: which array elements are touched (the same for every arithmetic),
    and what is computed when no rounding occurs (FilterSpec has the exact instance, the
    real and complex numbers).  [float_arith] is the instance with the program's floats. *)
From Verif Require Import Base DataIOModel FloatModel SignalModel.
Import ListNotations.
Open Scope Z_scope.

(** Trace_value ([tv]) and Complex_trace_value ([cv]) with the operations the file uses.
    The overloads mixing a real and a complex operand are written with the real operand
    turned into a complex number first.  std::pow of a float and an integer is one operation. *)
Record arith : Type := { tv : Type; cv : Type;
  t_of_Z : Z -> tv; t_add : tv -> tv -> tv; t_sub : tv -> tv -> tv; t_mul : tv -> tv -> tv; t_div : tv -> tv -> tv;
  t_sqrt : tv -> tv; t_tan : tv -> tv; t_pow : tv -> Z -> tv; t_pi : tv; t_zero : tv -> bool;
  c_make : tv -> tv -> cv; c_re : cv -> tv; c_im : cv -> tv; c_add : cv -> cv -> cv; c_sub : cv -> cv -> cv;
  c_mul : cv -> cv -> cv; c_div : cv -> cv -> cv; c_neg : cv -> cv; c_sqrt : cv -> cv; c_exp : cv -> cv }.

Section Filter.
Context (A : arith).
Notation T := (tv A). Notation K := (cv A).
Definition tz (n : Z) : T := t_of_Z A n.
Definition c_of (x : T) : K := c_make A x (tz 0).
Definition cz (n : Z) : K := c_of (tz n).
Definition c_I : K := c_make A (tz 0) (tz 1).

(** temporalfilter.cc:51-72 expandPoly, before the real parts are taken.  The outer loop
    body, with the inner loop over j. *)
Definition expand_inner (coef : list K) (i : Z) (v : list K) : outcome (list K) :=
  for_each (fun j v => obnd (zget v (i - j)) (fun x => obnd (zget coef i) (fun c => obnd (zget v (i - j - 1)) (fun y =>
    zset v (i - j) (c_add A (c_mul A x (c_neg A c)) y))))) (zr i) v.
Definition expand_outer (coef : list K) (i : Z) (v : list K) : outcome (list K) :=
  obnd (zset v (i + 1) (cz 1)) (fun v => obnd (expand_inner coef i v) (fun v =>
  obnd (zget v 0) (fun x => obnd (zget coef i) (fun c => zset v 0 (c_mul A x (c_neg A c)))))).
Definition expand_vec (coef : list K) (nvx : Z) : outcome (list K) :=
  obnd (zget coef 0) (fun c0 => obnd (zset (repeat (cz 0) (Z.to_nat (nvx + 1))) 0 (c_neg A c0)) (fun v =>
  obnd (zset v 1 (cz 1)) (fun v => for_each (fun i v => expand_outer coef (i + 1) v) (zr (nvx - 1)) v))).
(** 69-71: poly[i] = vecXpnd[i].real() *)
Definition expandPoly (coef : list K) (nvx : Z) : outcome (list T) :=
  obnd (expand_vec coef nvx) (fun v => Done (map (c_re A) v)).

(** 77-81 *)
Definition filDiv (x : K) : K := c_div A (c_add A (cz 4) x) (c_sub A (cz 4) x).

(** 83-97.  The result is the factor and the new arrays z and p. *)
Definition lowpass (N : Z) (z p : list K) (cf1 : T) : outcome (T * list K * list K) :=
  obnd (for_each (fun i s => let '(pp, z, p) := s in
          obnd (zget p i) (fun pi => let w := c_mul A pi (c_of cf1) in
          obnd (zset p i (filDiv w)) (fun p => obnd (zset z i (cz (-1))) (fun z =>
          Done (c_mul A pp (c_sub A (cz 4) w), z, p))))) (zr N) (cz 1, z, p))
       (fun s => let '(pp, z, p) := s in Done (t_div A (t_pow A cf1 N) (c_re A pp), z, p)).
(** 99-117 *)
Definition highpass (N : Z) (z p : list K) (cf1 : T) : outcome (T * list K * list K) :=
  obnd (for_each (fun i s => let '(pr, pp, z, p) := s in
          obnd (zget p i) (fun pi => let w := c_div A (c_of cf1) pi in
          obnd (zset p i (filDiv w)) (fun p => obnd (zset z i (cz 1)) (fun z =>
          Done (c_mul A pr (c_neg A pi), c_mul A pp (c_sub A (cz 4) w), z, p))))) (zr N) (cz 1, cz 1, z, p))
       (fun s => let '(pr, pp, z, p) := s in
          Done (t_mul A (t_div A (tz 1) (c_re A pr)) (t_div A (t_pow A (tz 4) N) (c_re A pp)), z, p)).
(** std::norm: the square of the modulus *)
Definition c_norm (x : K) : T := t_add A (t_mul A (c_re A x) (c_re A x)) (t_mul A (c_im A x) (c_im A x)).
(** 119-148.  The two loops. *)
Definition band_split (f : K -> K) (zl zr' : K) (len : T) (N : Z) (z p : list K) : outcome (list K * list K) :=
  for_each (fun i s => let '(z, p) := s in
    obnd (zget p i) (fun pi => let q := f pi in let r := c_sqrt A (c_sub A (c_mul A q q) (c_of len)) in
    obnd (zset p i q) (fun p => obnd (zset p (N + i) (c_sub A q r)) (fun p => obnd (zset p i (c_add A q r)) (fun p =>
    obnd (zset z i zl) (fun z => obnd (zset z (N + i) zr') (fun z => Done (z, p)))))))) (zr N) (z, p).
Definition bandpass (N : Z) (z p : list K) (cf1 cf2 : T) : outcome (T * list K * list K) :=
  let bndCntr := t_sub A cf2 cf1 in let bndLen := t_mul A cf1 cf2 in
  obnd (band_split (fun pi => c_mul A pi (c_of (t_div A bndCntr (tz 2)))) (cz 1) (cz (-1)) bndLen N z p) (fun s => let '(z, p) := s in
  obnd (for_each (fun i s => let '(pp, p) := s in
          obnd (zget p i) (fun pi => obnd (zset p i (filDiv pi)) (fun p => Done (c_mul A pp (c_sub A (cz 4) pi), p)))) (zr (2 * N)) (cz 1, p))
       (fun s => let '(pp, p) := s in
          Done (t_div A (t_mul A (t_mul A (t_pow A bndCntr N) (t_pow A (tz 4) N)) (c_re A pp)) (c_norm pp), z, p))).
(** 150-181 *)
Definition bandstop (N : Z) (z p : list K) (cf1 cf2 : T) : outcome (T * list K * list K) :=
  let bndCntr := t_sub A cf2 cf1 in let bndLen := t_sqrt A (t_mul A cf1 cf2) in let bndLen2 := t_mul A cf1 cf2 in
  let zi := c_mul A c_I (c_of bndLen) in
  obnd (band_split (fun pi => c_div A (c_of (t_div A bndCntr (tz 2))) pi) zi (c_neg A zi) bndLen2 N z p) (fun s => let '(z, p) := s in
  obnd (for_each (fun i s => let '(zp, pp, z, p) := s in
          obnd (zget z i) (fun zi => obnd (zset z i (filDiv zi)) (fun z =>
          obnd (zget p i) (fun pi => obnd (zset p i (filDiv pi)) (fun p =>
          Done (c_mul A zp (c_sub A (cz 4) zi), c_mul A pp (c_sub A (cz 4) pi), z, p)))))) (zr (N * 2)) (cz 1, cz 1, z, p))
       (fun s => let '(zp, pp, z, p) := s in
          Done (t_div A (t_add A (t_mul A (c_re A zp) (c_re A pp)) (t_mul A (c_im A zp) (c_im A pp))) (c_norm pp), z, p))).

(** 203-207: the analogue poles. *)
Definition proto (N i : Z) : K :=
  c_neg A (c_exp A (c_div A (c_mul A (c_mul A c_I (c_of (t_pi A))) (cz (1 + 2 * i - N))) (cz (2 * N)))).
(** 193-196 *)
Definition warp (cf fs : T) : T :=
  t_mul A (tz 4) (t_tan A (t_div A (t_mul A (t_pi A) (t_div A cf (t_div A fs (tz 2)))) (tz 2))).
(** 183-241 makeFilter.  fs * 0.5 is written fs / 2.  N is not negative (it comes from a
    size_t).  The results are written to numer and denom, whose lengths the caller
    makes tN + 1 (500-502). *)
Definition makeFilter (type : flt_type) (N : Z) (fs cf1 cf2 : T) : outcome (list T * list T) :=
  let tN := if t_zero A cf2 then N else 2 * N in
  let Wn := warp cf1 fs in let W2 := warp cf2 fs in
  let z := repeat (cz 0) (Z.to_nat tN) in
  obnd (for_each (fun i p => zset p i (proto N i)) (zr N) (repeat (cz 0) (Z.to_nat tN))) (fun p =>
  obnd (match type with
        | Lowpass => lowpass N z p Wn | Highpass => highpass N z p Wn
        | Bandpass => bandpass N z p Wn W2 | Bandstop => bandstop N z p Wn W2 end) (fun r => let '(k, z, p) := r in
  obnd (expandPoly z tN) (fun numer => obnd (expandPoly p tN) (fun denom =>
  let numer := map (fun x => t_mul A x k) numer in                                            (* 234-236 *)
  obnd (for_each (fun i d => obnd (zget d i) (fun x => obnd (zget d (tN - i)) (fun y =>      (* 238-240 *)
          obnd (zset d i y) (fun d => zset d (tN - i) x)))) (zr ((tN + 1) / 2)) denom) (fun denom =>
  Done (numer, denom)))))).

(** 387-410 IIR: the value of y[i], given those before it.  The terms j = 1 .. m are
    added to the start value. *)
Definition iir_terms (b a x ys : list T) (i m : Z) (start : T) : outcome T :=
  for_each (fun j acc => let j := j + 1 in
    obnd (zget b j) (fun bj => obnd (zget x (i - j)) (fun xj => obnd (zget a j) (fun aj => obnd (zget ys (i - j)) (fun yj =>
    Done (t_add A acc (t_sub A (t_mul A bj xj) (t_mul A aj yj)))))))) (zr m) start.
Definition iir_at (N : Z) (b a x zi ys : list T) (i : Z) : outcome T :=
  obnd (zget b 0) (fun b0 => obnd (zget x i) (fun xi =>
  if i <? N then obnd (zget zi i) (fun z => iir_terms b a x ys i i (t_add A (t_mul A b0 xi) z))
  else iir_terms b a x ys i N (t_mul A b0 xi))).
(** The outputs in order.  For N = 0 the first statement reads zi[0] of an empty array. *)
Definition IIR (N : Z) (b a x zi : list T) : outcome (list T) :=
  if (N <? 1) || (zlen x <? N) then Undefined else
  for_each (fun i ys => obnd (iir_at N b a x zi ys i) (fun y => Done (ys ++ [y]))) (zr (zlen x)) [].

(** 436-456: the initial conditions, before they are multiplied by the first sample.
    [part f i] is the running sum of f(1) .. f(i), added up in this order. *)
Definition part (s : T) (f : T -> T -> T -> T) (b a : list T) (i : Z) : outcome T :=
  for_each (fun j s => obnd (zget b (j + 1)) (fun bj => obnd (zget a (j + 1)) (fun aj => Done (t_add A s (f bj aj s))))) (zr i) s.
Definition zi_list (N : Z) (b a : list T) : outcome (list T) :=
  obnd (zget b 0) (fun b0 =>
  obnd (part (tz 0) (fun bj aj _ => t_sub A bj (t_mul A aj b0)) b a N) (fun B =>
  obnd (part (tz 1) (fun _ aj _ => aj) b a N) (fun Imin =>
  if N <? 1 then Undefined else
  let z0 := t_div A B Imin in
  for_each (fun i zs => obnd (part (tz 1) (fun _ aj _ => aj) b a (i + 1)) (fun ai =>
                        obnd (part (tz 0) (fun bj aj _ => t_sub A bj (t_mul A aj b0)) b a (i + 1)) (fun ci =>
                        Done (zs ++ [t_sub A (t_mul A ai z0) ci])))) (zr (N - 1)) [z0]))).
(** 454-478: the two passes over the padded trace [px] of the window of nw samples. *)
Definition filter_passes (nw N : Z) (b a px : list T) : outcome (list T) :=
  obnd (zi_list N b a) (fun zi => obnd (zget px 0) (fun x0 =>
  obnd (IIR N b a px (map (fun z => t_mul A z x0) zi)) (fun y =>
  let px := rev y in obnd (zget px 0) (fun x0 =>
  obnd (IIR N b a px (map (fun z => t_mul A z x0) zi)) (fun y =>
  for_each (fun i out => obnd (zget y (nw + 3 * (N + 1) - i - 1)) (fun v => Done (out ++ [v]))) (zr nw) []))))).
End Filter.

(** The program's floats.  Complex multiplication and division are the textbook formulas
    (the library's special treatment of infinities is left out); the library functions
    sqrt (complex), exp, tan and pow are arguments. *)
Definition float_arith (ftan : F -> F) (fpow : F -> Z -> F) (fpi : F) (csqrt cexp : F * F -> F * F) : arith :=
  {| tv := F; cv := F * F; t_of_Z := f_of_Z; t_add := fadd; t_sub := fsub; t_mul := fmul; t_div := fdiv; t_sqrt := fsqrt;
     t_tan := ftan; t_pow := fpow; t_pi := fpi; t_zero := fun x => feqb x f0;
     c_make := pair; c_re := fst; c_im := snd;
     c_add := fun x y => (fadd (fst x) (fst y), fadd (snd x) (snd y)); c_sub := fun x y => (fsub (fst x) (fst y), fsub (snd x) (snd y));
     c_mul := fun x y => (fsub (fmul (fst x) (fst y)) (fmul (snd x) (snd y)), fadd (fmul (fst x) (snd y)) (fmul (snd x) (fst y)));
     c_div := fun x y => let d := fadd (fmul (fst y) (fst y)) (fmul (snd y) (snd y)) in
       (fdiv (fadd (fmul (fst x) (fst y)) (fmul (snd x) (snd y))) d, fdiv (fsub (fmul (snd x) (fst y)) (fmul (fst x) (snd y))) d);
     c_neg := fun x => (fsub f0 (fst x), fsub f0 (snd x)); c_sqrt := csqrt; c_exp := cexp |}.
(** 412-478 filterTime with floats: pad, then the two passes. *)
Definition filterTime (A : arith) (pd : pad) (cast : list F -> list (tv A)) (numTail : Z) (b a : list (tv A)) (w : list F) : outcome (list (tv A)) :=
  obnd (padded pd numTail w) (fun px => filter_passes A (zlen w) numTail b a (cast px)).
