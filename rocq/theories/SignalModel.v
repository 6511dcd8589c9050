(** src/utils/signal_processing: tapers, automatic gain control and gain functions;
    src/temporalfilter.cc: windows and paddings. *)
From Verif Require Import Base DataIOModel FloatModel.
Import ListNotations.
Open Scope Z_scope.

(** What a call does: it returns, an assertion stops the program (debug builds only,
    [dbg = true]), or it has no defined behaviour (an access outside the array). *)
Inductive outcome (A : Type) : Type := Done (a : A) | Abort | Undefined.
Arguments Done {A} a. Arguments Abort {A}. Arguments Undefined {A}.
Definition obnd {A B} (x : outcome A) (f : A -> outcome B) : outcome B :=
  match x with Done a => f a | Abort => Abort | Undefined => Undefined end.
(** assert(b) *)
Definition asserted {A} (dbg b : bool) (k : outcome A) : outcome A := if dbg && negb b then Abort else k.
Definition zlen {A} (s : list A) : Z := Z.of_nat (length s).
(** Reading and replacing element i of an array. *)
Definition zget {A} (s : list A) (i : Z) : outcome A :=
  if i <? 0 then Undefined else match nth_error s (Z.to_nat i) with Some x => Done x | None => Undefined end.
Fixpoint lset {A} (s : list A) (i : nat) (x : A) : list A :=
  match s, i with [], _ => [] | _ :: t, O => x :: t | y :: t, S i => y :: lset t i x end.
Definition zset {A} (s : list A) (i : Z) (x : A) : outcome (list A) :=
  if (0 <=? i) && (i <? zlen s) then Done (lset s (Z.to_nat i) x) else Undefined.
(** A for loop over the given indices. *)
Fixpoint for_each {S} (body : Z -> S -> outcome S) (js : list Z) (s : S) : outcome S :=
  match js with [] => Done s | j :: js => obnd (body j s) (for_each body js) end.

(** signal[i] *= x *)
Definition scale_at (s : list F) (i : Z) (x : F) : outcome (list F) := obnd (zget s i) (fun v => zset s i (fmul v x)).

(** taper.cc:55-65 the two loops. *)
Definition taper_loops (fn : F -> F -> F) (s : list F) (l r : Z) : outcome (list F) :=
  obnd (for_each (fun j s => scale_at s j (fn (f_of_Z (u64 (j + 1))) (f_of_Z l))) (zr l) s) (fun s =>
  for_each (fun j s => scale_at s (u64 (u64 (zlen s - r) + j)) (fn (f_of_Z (r - j)) (f_of_Z r))) (zr r) s).
(** taper.cc:30-33 find_if(v != 0): how many leading elements compare equal to 0. *)
Fixpoint leading_zeros (s : list F) : nat := match s with [] => O | x :: s => if feqb x f0 then S (leading_zeros s) else O end.
(** taper.cc:16-66 taper.  [fuel] bounds the depth of the recursion (taper_depth shows
    two levels suffice). *)
Fixpoint taper_n (fuel : nat) (dbg : bool) (fn : F -> F -> F) (s : list F) (l r : Z) : outcome (list F) :=
  asserted dbg ((l <? zlen s) && (r <? zlen s))                          (* 23 *)
  match s, fuel with
  | [], _ => Undefined                                                   (* 27: signal[0] *)
  | _, O => Undefined
  | x :: _, S fuel =>
    if feqb x f0 then
      let k := leading_zeros s in
      let t := skipn k s in
      match dbg, t with
      | true, [] => Undefined                                            (* 34: reads one past the end *)
      | _, _ => obnd (taper_n fuel dbg fn t (Z.min l (zlen t)) (Z.min r (zlen t))) (fun t' => Done (firstn k s ++ t'))
      end
    else taper_loops fn s l r
  end.
Definition taper := taper_n 2.
(** Set.cc:665-686: every trace of the block in turn. *)
Fixpoint traces_each (f : list F -> outcome (list F)) (traces : list (list F)) : outcome (list (list F)) :=
  match traces with [] => Done [] | t :: ts => obnd (f t) (fun t' => obnd (traces_each f ts) (fun ts' => Done (t' :: ts'))) end.
Definition set_taper (dbg : bool) (fn : F -> F -> F) (l r : Z) : list (list F) -> outcome (list (list F)) := traces_each (fun t => taper dbg fn t l r).

(** Taper_function.cc:14-17 *)
Definition linear_taper (weight ramp : F) : F := fsub (f_of_Z 1) (fabs (fdiv (fsub weight ramp) ramp)).

(** Gain_function.h: a gain function gets the window, the target amplitude and the
    index of the centre. *)
Definition gain_function := list F -> F -> Z -> outcome F.
(** &signal[a] with size w, both inside the array. *)
Definition window (s : list F) (a w : Z) : outcome (list F) :=
  if (0 <=? a) && (0 <=? w) && (a + w <=? zlen s) then Done (firstn (Z.to_nat w) (skipn (Z.to_nat a) s)) else Undefined.
(** AGC.cc:42-80: (j, start, size, centre) of the three loops. *)
Definition agc_steps (n win2 w : Z) : list (Z * (Z * Z * Z)) :=
  map (fun j => (j, (0, win2 + j + 1, j))) (zr win2) ++
  map (fun k => let j := win2 + k in (j, (j - win2, w, win2))) (zr (u64 (n - win2) - win2)) ++
  map (fun k => let j := u64 (n - win2) + k in (j, (u64 (j - win2), win2 + ((n - 1) - j) + 1, win2))) (zr (n - u64 (n - win2))).
Fixpoint agc_gains (g : gain_function) (s : list F) (target : F) (steps : list (Z * (Z * Z * Z))) (gain : list F) : outcome (list F) :=
  match steps with
  | [] => Done gain
  | (j, (a, w, c)) :: steps => obnd (window s a w) (fun win => obnd (g win target c) (fun x => obnd (zset gain j x) (agc_gains g s target steps)))
  end.
(** AGC.cc:22-86 *)
Definition AGC (dbg : bool) (g : gain_function) (s : list F) (w : Z) (target : F) : outcome (list F) :=
  let w := if w mod 2 =? 0 then u64 (w + 1) else w in
  asserted dbg (w <? zlen s)
  (obnd (agc_gains g s target (agc_steps (zlen s) (w / 2) w) (repeat f0 (length s))) (fun gain =>
   Done (map (fun xg => fmul (fst xg) (snd xg)) (combine s gain)))).
(** Set.cc:688-713 *)
Definition set_AGC (dbg : bool) (g : gain_function) (w : Z) (target : F) : list (list F) -> outcome (list (list F)) := traces_each (fun t => AGC dbg g t w target).

(** Gain_function.cc: count_if(!= 0). *)
Definition non_zero (w : list F) : Z := zlen (filter (fun x => negb (feqb x f0)) w).
(** Gain_function.cc:20-36 *)
Definition rectangular_RMS_gain (dbg : bool) : gain_function := fun w target _ =>
  let amp := fold_left (fun a x => fadd a (fmul x x)) w f0 in
  asserted dbg (negb (feqb amp f0)) (Done (fdiv target (fsqrt (fdiv amp (f_of_Z (Z.max 1 (non_zero w))))))).
(** Gain_function.cc:98-117: the weight of sample j. *)
Definition tri_scaling (n c j : Z) : F :=
  let half := f_of_Z (Z.max c (n - 1 - c)) in
  fsub (f_of_Z 1) (fdiv (f_of_Z (if c <? j then j - c else c - j)) half).
(** Gain_function.cc:48-127 *)
Definition triangular_RMS_gain (dbg : bool) : gain_function := fun w target c =>
  asserted dbg ((0 <? zlen w) && (c <? zlen w))
  (let amp := fold_left (fun a jx => let y := fmul (snd jx) (tri_scaling (zlen w) c (fst jx)) in fadd a (fmul y y)) (combine (zr (zlen w)) w) f0 in
   asserted dbg (negb (feqb amp f0)) (Done (fdiv target (fsqrt (fdiv amp (f_of_Z (Z.max 1 (non_zero w)))))))).
(** Gain_function.cc:140-156 *)
Definition mean_abs_gain (dbg : bool) : gain_function := fun w target _ =>
  asserted dbg (0 <? zlen w)
  (let amp := fold_left fadd w f0 in
   asserted dbg (negb (feqb amp f0)) (Done (fdiv target (fdiv (fabs amp) (f_of_Z (Z.max 1 (non_zero w))))))).
(** Gain_function.cc:168-191.  [srt] is std::sort, which must not be given NaN. *)
Definition median_gain (srt : forall A, (A -> A -> bool) -> list A -> list A) (dbg : bool) : gain_function := fun w target _ =>
  if existsb f_nan w then Undefined else
  let v := srt _ fltb w in
  let n := zlen w in
  obnd (if n mod 2 =? 0 then obnd (zget v (n / 2)) (fun a => obnd (zget v (n / 2 + 1)) (fun b => Done (fdiv (fadd a b) (f_of_Z 2))))
        else zget v (n / 2)) (fun amp =>
  asserted dbg (negb (feqb amp f0)) (Done (fdiv target amp))).

(** temporalfilter.cc:493-495: the window size and centre used. *)
Definition tf_nw (nw ns : Z) : Z := let nw := if (nw =? 0) || (ns <? nw) then ns else nw in if negb (nw mod 2 =? 0) then nw else u64 (nw - 1).
Definition tf_centre (c ns : Z) : Z := if c =? 0 then ns / 2 else c.
(** temporalfilter.cc:509, 526: the index of sample j of the window of trace i. *)
Definition tf_index (ns nw c i j : Z) : Z := u64 (u64 (u64 (i * ns) + u64 (tf_centre c ns - tf_nw nw ns / 2)) + j).
(** temporalfilter.cc:480-529, the filter itself abstracted to [flt] (filterTime or
    filterFreq on the copy of the window, whose length it keeps). *)
Fixpoint tf_read (trc : list F) (ix : list Z) : outcome (list F) :=
  match ix with [] => Done [] | i :: ix => obnd (zget trc i) (fun x => obnd (tf_read trc ix) (fun xs => Done (x :: xs))) end.
Fixpoint tf_write (trc : list F) (ixs : list (Z * F)) : outcome (list F) :=
  match ixs with [] => Done trc | (i, x) :: ixs => obnd (zset trc i x) (fun t => tf_write t ixs) end.
Definition temporalFilter (dbg : bool) (flt : list F -> outcome (list F)) (nt ns nw c : Z) (trc : list F) : outcome (list F) :=
  asserted dbg (tf_centre c ns <? ns)
  (for_each (fun i trc =>
     let ix := map (tf_index ns nw c i) (zr (tf_nw nw ns)) in
     obnd (tf_read trc ix) (fun w => obnd (flt w) (fun w' => tf_write trc (combine ix w')))) (zr nt) trc).

(** temporalfilter.cc:294-327 getPad: the element of the window read for position j
    ([None]: the constant 0). *)
Inductive pad := PZero | PSymmetric | PReplicate | PCyclic.
Definition pad_index (p : pad) (N nw j : Z) : option Z :=
  match p with
  | PZero => None
  | PSymmetric => Some (if j <=? nw then u64 (N - j) else u64 (2 * (nw + N) - j))
  | PReplicate => Some (if j <=? nw then 0 else nw)
  | PCyclic => Some (if j <=? nw then u64 (nw - u64 (N - j)) else u64 (u64 (j - nw) - N))
  end.
(** temporalfilter.cc:422-426: what filterTime reads of the window of nw samples while
    padding it, for numTail filter coefficients. *)
Definition pad_reads (p : pad) (nw numTail : Z) : list Z :=
  let N := 3 * (numTail + 1) in
  flat_map (fun i => match pad_index p N nw i, pad_index p N (u64 (nw - 1)) (i + 3 * numTail + nw) with Some a, Some b => [a; b] | _, _ => [] end) (zr N).
(** temporalfilter.cc:420-430: the padded trace (its length is nw + 6 (numTail + 1)),
    positions the loops leave alone being 0. *)
Definition pad_value (p : pad) (N : Z) (w : list F) (nw j : Z) : outcome F := match pad_index p N nw j with None => Done f0 | Some a => zget w a end.
Definition padded (p : pad) (numTail : Z) (w : list F) : outcome (list F) :=
  let nw := zlen w in let N := 3 * (numTail + 1) in
  obnd (for_each (fun i x => obnd (pad_value p N w nw i) (fun a => obnd (zset x i a) (fun x =>
          obnd (pad_value p N w (u64 (nw - 1)) (i + 3 * numTail + nw)) (fun b => zset x (i + 3 * numTail + nw) b))))
        (zr N) (repeat f0 (Z.to_nat (nw + 6 * (numTail + 1))))) (fun x =>
  for_each (fun i x => obnd (zget w i) (fun a => zset x (i + N) a)) (zr nw) x).

(** temporalfilter.cc:243-292: the corners each filter type reads when the order is
    worked out from them. *)
Inductive flt_type := Lowpass | Highpass | Bandpass | Bandstop.
Definition auto_corners (t : flt_type) : list Z :=
  match t with Lowpass => [0; 1] | Highpass => [1; 0] | Bandpass => [1; 2; 1; 0; 2; 3] | Bandstop => [0; 3; 0; 1; 3; 2] end.
(** Set.cc:750-772 asserts two corners before that. *)
Definition auto_order_call (dbg : bool) (t : flt_type) (corners : list F) : outcome (list F) :=
  asserted dbg (zlen corners =? 2) (tf_read corners (auto_corners t)).
