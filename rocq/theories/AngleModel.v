(** The transform of gathers to angle gathers: /repo/src/Flow/Set.cc:606-662 and
    /repo/src/Flow/RadonGatherState.cc. *)
From Flocq Require Import Core IEEE754.BinarySingleNaN.
From Verif Require Import Base DataIOModel DoubleModel FloatModel SignalModel.
Import ListNotations.
Open Scope Z_scope.

(** double(x) for a float; always exact. *)
Definition d_of_F (x : F) : D :=
  match x with
  | B754_zero s => B754_zero s
  | B754_infinity s => B754_infinity s
  | B754_nan => B754_nan
  | B754_finite s m e _ => @binary_normalize prec64 emax64 Hprec64 Hmax64 mode_NE (if s then Zneg m else Zpos m) e s
  end.
(** size_t(x) for a double: truncation; a value that does not fit is undefined. *)
Definition size_of (x : D) : outcome Z :=
  match x with
  | B754_zero _ => Done 0
  | B754_finite s m e _ =>
    let a := if 0 <=? e then Z.shiftl (Zpos m) e else Z.shiftr (Zpos m) (- e) in
    let r := if s then - a else a in
    if (0 <=? r) && (r <? two64) then Done r else Undefined
  | _ => Undefined
  end.
(** RadonGatherState.hh:25-54 *)
Record angle_state := mkState {
  s_vtrc : list F; s_il : list Z; s_xl : list Z; s_vNs : Z; s_vBin : Z; s_oGSz : Z; s_vInc : D; s_oInc : D }.
(** The parts of a block that are used: TraceBlock.hh.  [b_size] is prm->size(). *)
Record gblock := mkBlock { b_size : Z; b_ns : Z; b_inc : D; b_gNum : Z; b_trc : list F }.

Section Angle.
(** cos, and llround: dlround where the standard says what it is. *)
Context (ccos : D -> D) (llround : D -> Z).
(** Set.cc:634-641: where in the model the value for sample z of gather gNum is *)
Definition model_place (st : angle_state) (gNum : Z) (inc : D) (z : Z) : outcome Z :=
  obnd (size_of (ddiv (dmul (d_of_Z z) inc) (s_vInc st))) (fun t => Done (gNum * s_vNs st + Z.min t (s_vNs st))).
(** Set.cc:642-646: the quotient is unsigned, as vBin is *)
Definition trace_of (st : angle_state) (v : D) (j : Z) : outcome Z :=
  if s_vBin st =? 0 then Undefined
  else Done (s64 (u64 (llround (ddiv v (ccos (dmul (d_of_Z j) (s_oInc st))))) / s_vBin st)).
(** Set.cc:631-650, one sample *)
Definition angle_sample (st : angle_state) (b : gblock) (j z : Z) (out : list F) : outcome (list F) :=
  obnd (model_place st (b_gNum b) (b_inc b) z) (fun i =>
  obnd (zget (s_vtrc st) i) (fun v =>
  obnd (trace_of st (d_of_F v) j) (fun k =>
  if (0 <? k) && (k <? b_size b) then
    obnd (zget (b_trc b) (k * b_ns b + z)) (fun x => zset out (j * b_ns b + z) x)
  else Done out))).
(** Set.cc:617-661: the traces, inlines and crosslines of the output *)
Definition angle_gather (st : angle_state) (b : gblock) : outcome (list F * list Z * list Z) :=
  let out0 := repeat f0 (Z.to_nat (s_oGSz st * b_ns b)) in
  let no := repeat 0 (Z.to_nat (s_oGSz st)) in
  if b_size b =? 0 then Done (out0, no, no) else
  obnd (for_each (fun j out => for_each (fun z out => angle_sample st b j z out) (zr (b_ns b)) out) (zr (s_oGSz st)) out0) (fun out =>
  if s_oGSz st =? 0 then Done (out, no, no) else
  obnd (zget (s_il st) (b_gNum b)) (fun il => obnd (zget (s_xl st) (b_gNum b)) (fun xl =>
  Done (out, repeat il (Z.to_nat (s_oGSz st)), repeat xl (Z.to_nat (s_oGSz st)))))).
End Angle.
