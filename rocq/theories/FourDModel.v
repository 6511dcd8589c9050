(** util/4dcore.cc, util/4dio.hh and util/fourdbin.cc: matching the traces of two
    surveys.  A size_t index is in Z with its wrap written out; [None] is an access
    outside an allocation (or outside an MPI window, see [checked]). *)
From Verif Require Import Base FloatModel.
Import ListNotations.
Open Scope Z_scope.

(** One entry of struct Coords, util/4dio.hh:22-48. *)
Record shot := mkShot { xs : F; ys : F; xr : F; yr : F; tn : Z; iln : Z; xln : Z }.
(** std::numeric_limits<float>::max() *)
Definition fmax : F := f_of_Z (2 ^ 128 - 2 ^ 104).
Definition size (c : list shot) : Z := Z.of_nat (length c).
(** util/4dio.hh:57 allocSz *)
Definition alloc (sz : Z) : Z := (sz + 32) / 32 * 32.
(** c->xSrc[k]: the coordinates, then the padding of util/4dio.hh:80-83, then nothing. *)
Definition xat (c : list shot) (k : Z) : option F :=
  if k <? 0 then None else
  if k <? size c then option_map xs (nth_error c (Z.to_nat k)) else
  if k <? alloc (size c) then Some fmax else None.

(** util/4dcore.cc:85-89 *)
Definition hypot (x y : F) : F := fsqrt (fadd (fmul x x) (fmul y y)).
(** std::min(a, b) *)
Definition fmin (a b : F) : F := if fltb b a then b else a.
(** util/4dcore.cc:203-220 *)
Definition dsr (t u : shot) : F :=
  fmin (fadd (hypot (fsub (xs t) (xs u)) (fsub (ys t) (ys u))) (hypot (fsub (xr t) (xr u)) (fsub (yr t) (yr u))))
       (fadd (hypot (fsub (xs t) (xr u)) (fsub (ys t) (yr u))) (hypot (fsub (xr t) (xs u)) (fsub (yr t) (ys u)))).
(** util/4dcore.cc:244-249, 338-343; [ix]: the template parameter ixline. *)
Definition dval (ix : bool) (t u : shot) : F :=
  if negb ix || ((iln t =? iln u) && (xln t =? xln u)) then dsr t u else fmax.
(** util/4dcore.cc:235-252 initUpdate: matches (min[i], minrs[i]).  The trace number
    of an empty crd2 is not initialised. *)
Definition initUpdate (ix : bool) (c1 c2 : list shot) : option (list (Z * F)) :=
  match c2 with
  | u :: _ => Some (map (fun t => (tn u, dval ix t u)) c1)
  | [] => match c1 with [] => Some [] | _ => None end
  end.
(** for (; k < hi && test(k); k++) and for (; k >= lo && test(k); k--) *)
Fixpoint climb (fuel : nat) (test : Z -> option bool) (k hi : Z) : option Z :=
  match fuel with
  | O => None
  | S fuel => if k <? hi then obind (test k) (fun b => if b then climb fuel test (k + 1) hi else Some k) else Some k
  end.
Fixpoint descend (fuel : nat) (test : Z -> option bool) (k lo : Z) : option Z :=
  match fuel with
  | O => None
  | S fuel => if lo <=? k then obind (test k) (fun b => if b then descend fuel test (u64 (k - 1)) lo else Some k) else Some k
  end.
(** a < b - d and a > b + d for values that may be unreadable *)
Definition below (a b : option F) (d : F) : option bool := obind a (fun a => obind b (fun b => Some (fltb a (fsub b d)))).
Definition above (a b : option F) (d : F) : option bool := obind a (fun a => obind b (fun b => Some (fltb (fadd b d) a))).
(** util/4dcore.cc:278-297: rstart, rend, lstart, lend.  The fuel covers one step more
    than there are indices. *)
Definition window (dm : F) (c1 c2 : list shot) : option (Z * Z * Z * Z) :=
  let n1 := size c1 in let n2 := size c2 in
  obind (climb (S (length c2)) (fun k => below (xat c2 k) (xat c1 0) dm) 0 n2) (fun rstart =>
  obind (descend (S (S (length c2))) (fun k => above (xat c2 k) (xat c1 (u64 (n1 - 1))) dm) n2 rstart) (fun rend =>
  obind (climb (S (length c1)) (fun k => below (xat c1 k) (xat c2 rstart) dm) 0 n1) (fun lstart =>
  obind (descend (S (S (length c1))) (fun k => above (xat c1 k) (xat c2 (u64 (rend - 1))) dm) n1 lstart) (fun lend =>
  Some (rstart, rend, lstart, lend))))).
(** util/4dcore.cc:332-350: one trace of file 1 against those of file 2. *)
Definition scan (ix : bool) (t : shot) (us : list shot) (m : Z * F) : Z * F :=
  fold_left (fun m u => let d := dval ix t u in ((if fltb d (snd m) then tn u else fst m), fmin d (snd m))) us m.
(** util/4dcore.cc:330-351, i from the given index. *)
Fixpoint scan_all (ix : bool) (lo hi : Z) (us : list shot) (i : Z) (c1 : list shot) (m : list (Z * F)) : list (Z * F) :=
  match c1, m with
  | t :: c1, x :: m => (if (lo <=? i) && (i <? hi) then scan ix t us x else x) :: scan_all ix lo hi us (i + 1) c1 m
  | _, _ => []
  end.
(** util/4dcore.cc:269-358 update.  The reads at 300-351 stay inside the arrays. *)
Definition update (ix : bool) (dm : F) (c1 c2 : list shot) (m : list (Z * F)) : option (list (Z * F)) :=
  obind (window dm c1 c2) (fun '(rstart, rend, lstart, lend) =>
  Some (scan_all ix (lstart / 32 * 32) lend (firstn (Z.to_nat (rend - rstart)) (skipn (Z.to_nat rstart) c2)) 0 c1 m)).

(** util/4dcore.cc:96-178: the windows have sz bytes; 4 or 8 bytes are fetched per
    entry.  [checked]: the MPI library enforces the size of a window; if not, the whole
    array is fetched. *)
Definition window_bytes (sz : Z) : Z := sz.
Definition getCoordsWin (checked : bool) (c : list shot) : option (list shot) :=
  if checked && negb ((4 * size c <=? window_bytes (size c)) && (8 * size c <=? window_bytes (size c))) then None else Some c.
(** util/4dcore.cc:454-457: the least and greatest xSrc of every process. *)
Definition extent (c : list shot) : option (F * F) := obind (xat c 0) (fun a => obind (xat c (u64 (size c - 1))) (fun b => Some (a, b))).
(** util/4dcore.cc:474-478 *)
Definition active (dm lmin lmax : F) (e : F * F) : bool := fleb (fsub (fst e) dm) lmax && fleb lmin (fadd (snd e) dm).
Fixpoint rounds (checked ix : bool) (dm : F) (c1 : list shot) (cs : list (list shot)) (m : list (Z * F)) : option (list (Z * F)) :=
  match cs with
  | [] => Some m
  | c :: cs => obind (getCoordsWin checked c) (fun c => obind (update ix dm c1 c m) (rounds checked ix dm c1 cs))
  end.
(** util/4dcore.cc:440-554 calc4DBin on the process that holds c1 of file 1 and mine of
    file 2, where cs lists what every process holds of file 2. *)
Definition calc4DBin (checked ix : bool) (dm : F) (c1 mine : list shot) (cs : list (list shot)) : option (list (Z * F)) :=
  obind (omap extent cs) (fun es =>
  obind (extent c1) (fun '(lmin, lmax) =>
  obind (initUpdate ix c1 mine) (fun m =>
  rounds checked ix dm c1 (map fst (filter (fun ce => active dm lmin lmax (snd ce)) (combine cs es))) m))).
(** util/fourdbin.cc:137-143: the pairs kept. *)
Definition kept (dm : F) (c1 : list shot) (m : list (Z * F)) : list (Z * Z * F) :=
  map (fun tm => (tn (fst tm), fst (snd tm), snd (snd tm))) (filter (fun tm => fleb (snd (snd tm)) dm) (combine c1 m)).
