(** What it means that a trace of one file is a copy of a trace of another: the numbers
    in the header as the SEG-Y standard defines them (bytes counted from 1, big endian,
    two's complement; a positive coordinate scale factor multiplies, a negative one
    divides, zero means one). *)
From Coq Require Import Reals.
From Verif Require Import Base DataIOModel FileSpec.
Open Scope Z_scope.

Definition int16_at (h : Z -> Z) (b : Z) : Z :=
  let v := 256 * h (b - 1) + h b in if v <? 32768 then v else v - 65536.
Definition int32_at (h : Z -> Z) (b : Z) : Z :=
  let v := 16777216 * h (b - 1) + 65536 * h b + 256 * h (b + 1) + h (b + 2) in if v <? 2147483648 then v else v - 4294967296.
Definition factor (s : Z) : R := if s =? 0 then 1%R else if 0 <? s then IZR s else (/ IZR (- s))%R.
(** The coordinate at byte b, with the scale factor at byte c. *)
Definition coordinate (h : Z -> Z) (b c : Z) : R := (IZR (int32_at h b) * factor (int16_at h c))%R.
(** The scale factors the standard allows that do not enlarge. *)
Definition plain_scale (s : Z) : Prop := In s [0; 1; -10; -100; -1000; -10000].

(** The 32-bit fields and the coordinates (scaled by bytes 71-72) of a default rule:
    trace number, offset, in-line, cross-line; source, receiver and midpoint. *)
Definition copied_ints : list Z := [5; 37; 189; 193].
Definition copied_coordinates : list Z := [73; 77; 81; 85; 181; 185].
(** Trace b of f' is a copy of trace a of f. *)
Record trace_copied (f : file) (a : Z) (f' : file) (b ns : Z) : Prop := mkCopied {
  cp_samples : forall k, 0 <= k < ns -> disk_sample f' ns b k = disk_sample f ns a k;
  cp_ints : forall l, In l copied_ints -> int32_at (disk_header f' ns b) l = int32_at (disk_header f ns a) l;
  cp_coordinates : plain_scale (int16_at (disk_header f ns a) 71) ->
    forall l, In l copied_coordinates -> coordinate (disk_header f' ns b) l 71 = coordinate (disk_header f ns a) l 71 }.
