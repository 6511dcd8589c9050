(** What it means that a file is a sorted copy of another. *)
From Coq Require Import Reals.
From Verif Require Import Base DataIOModel DoubleModel ParamModel SortModel FileSpec CopySpec.
Open Scope Z_scope.

(** The header bytes (counted from 0) that a sort may rewrite: trace number, offset, water
    depth, the scale factors, source and receiver, midpoint, in-line and cross-line. *)
Definition rewritten (x : Z) : Prop := 4 <= x < 8 \/ 36 <= x < 40 \/ 64 <= x < 88 \/ 180 <= x < 196.
(** Trace b of f' is trace a of f: every sample, every integer field and every other header
    byte is the same, coordinates and water depth are the same numbers. *)
Record sorted_copy (f : file) (a : Z) (f' : file) (b ns : Z) : Prop := mkSortedCopy {
  sc_copied : trace_copied f a f' b ns;
  sc_depth : plain_scale (int16_at (disk_header f ns a) 69) -> coordinate (disk_header f' ns b) 65 69 = coordinate (disk_header f ns a) 65 69;
  sc_rest : forall x, 0 <= x < 240 -> ~ rewritten x -> disk_header f' ns b x = disk_header f ns a x }.

(** The metadata of trace n with header h, as the library reads them. *)
Definition read_coordinate (h : Z -> Z) (l : Z) : D := dmul (parse_scalar (int16_at h 71)) (d_of_Z (int32_at h l)).
Definition header_geo (h : Z -> Z) (n : Z) : geo :=
  mkGeo (read_coordinate h 73) (read_coordinate h 77) (read_coordinate h 81) (read_coordinate h 85)
        (int32_at h 189) (int32_at h 193) (u64 (int32_at h 37)) n.
(** The numbers that the orders without computed distance compare, from the header itself:
    source and receiver (35), source and offset (37), receiver and offset (39), line and
    offset (41), offset and line (43), then the trace number. *)
Definition header_keys (type : Z) (h : Z -> Z) (n : Z) : list R :=
  let src := [coordinate h 73 71; coordinate h 77 71] in let rcv := [coordinate h 81 71; coordinate h 85 71] in
  let line := [IZR (int32_at h 189); IZR (int32_at h 193)] in let off := [IZR (int32_at h 37)] in
  (match type with
   | 35 => src ++ rcv
   | 37 => src ++ off
   | 39 => rcv ++ off
   | 41 => line ++ off
   | _ => off ++ line
   end ++ [IZR n])%list.
