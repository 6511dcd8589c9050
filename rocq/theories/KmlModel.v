(** The text of coordinates and the order of points in /repo/util/segy2kml.cc. *)
From Verif Require Import Base DoubleModel.
Import ListNotations.
Open Scope Z_scope.

(** std::to_string(long long): decimal digits, as character codes. *)
Fixpoint digits (fuel : nat) (n : Z) : list Z :=
  match fuel with
  | O => []
  | S fuel => (if n <? 10 then [] else digits fuel (n / 10)) ++ [48 + n mod 10]
  end.
Definition to_string (n : Z) : list Z := if n <? 0 then 45 :: digits 20 (- n) else digits 20 n.
(** static_cast<long long>(std::floor(x)); None: NaN or outside 64 bits. *)
Definition dfloor (x : D) : option Z := obind (dtrunc x) (fun t => Some (if dltb x (d_of_Z t) then t - 1 else t)).
(** segy2kml.cc:45-50, highPrecStr.  floor(coord) is a whole double, so converting it to
    long long and back changes nothing. *)
Definition highPrecStr (coord : D) : option (list Z) :=
  obind (dfloor coord) (fun fl =>
  obind (dfloor (dmul (dsub coord (d_of_Z fl)) (d_of_Z 10000000000))) (fun fr =>
  Some (to_string fl ++ 46 :: to_string fr))).

(** segy2kml.cc:262-285 and 69-72: what is printed for the extremes of a file.  [mm] is
    (smallest x, largest x, smallest y, largest y); [conv] is utm2LatLong, easting and
    northing to latitude and longitude (its formula is not modelled); [zone] says whether
    a zone was given.  Each point is the pair printed, in the order printed. *)
Record extremes := mkExt { x_min : D; x_max : D; y_min : D; y_max : D }.
Definition kml_points (conv : D -> D -> D * D) (zone : bool) (mm : extremes) : (D * D) * (D * D) :=
  let mm := if dltb (d_of_Z 180) (x_min mm) && zone
            then let '(lat0, lng0) := conv (x_min mm) (y_min mm) in let '(lat1, lng1) := conv (x_max mm) (y_max mm) in mkExt lat0 lat1 lng0 lng1
            else mm in
  ((y_min mm, x_min mm), (y_max mm, x_max mm)).
