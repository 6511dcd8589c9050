(** What 4D binning should report. *)
From Coq Require Import Reals.
From Flocq Require Import Core IEEE754.BinarySingleNaN.
From Verif Require Import Base FloatModel FourDModel.
Import ListNotations.
Open Scope Z_scope.

(** A trace whose coordinates are numbers. *)
Definition located (t : shot) : Prop := is_finite (xs t) = true /\ is_finite (ys t) = true /\ is_finite (xr t) = true /\ is_finite (yr t) = true.
(** m names a trace of file 2 and its distance from t. *)
Definition genuine (ix : bool) (file2 : list shot) (t : shot) (m : Z * F) : Prop := exists u, In u file2 /\ fst m = tn u /\ snd m = dval ix t u.
(** ... and none of us is nearer. *)
Definition nearest (ix : bool) (us : list shot) (t : shot) (m : Z * F) : Prop := forall u, In u us -> fltb (dval ix t u) (snd m) = false.
(** Sorted by the x coordinate of the source, as getCoords leaves the traces. *)
Definition by_source (c : list shot) : Prop := forall i j t u, (i <= j)%nat -> nth_error c i = Some t -> nth_error c j = Some u -> fleb (xs t) (xs u) = true.

(** The distance of the documentation (util/4dcore.cc:192-201). *)
Open Scope R_scope.
Definition apart (x1 y1 x2 y2 : R) : R := sqrt ((x1 - x2) ^ 2 + (y1 - y2) ^ 2).
Definition documented (t u : shot) : R :=
  let ds := apart (B2R (xs t)) (B2R (ys t)) (B2R (xs u)) (B2R (ys u)) in
  let dr := apart (B2R (xr t)) (B2R (yr t)) (B2R (xr u)) (B2R (yr u)) in
  let rds := apart (B2R (xs t)) (B2R (ys t)) (B2R (xr u)) (B2R (yr u)) in
  let rdr := apart (B2R (xr t)) (B2R (yr t)) (B2R (xs u)) (B2R (ys u)) in
  (Rmin ds rds + Rmin dr rdr) ^ 2.
