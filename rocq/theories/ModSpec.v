(** What the programs that change a file while they copy it are for. *)
From Coq Require Import Reals.
From Flocq Require Import Core IEEE754.BinarySingleNaN.
From Verif Require Import Base DecompModel DataIOModel FileSpec SetOpsModel CopySpec CreateSpec.
Import ListNotations.
Open Scope Z_scope.

(** The header of trace i of f' is that of f with the two source coordinates exchanged. *)
Record source_swapped (f f' : file) (ns i : Z) : Prop := mkSwapped {
  sw_ints : forall l, In l copied_ints -> int32_at (disk_header f' ns i) l = int32_at (disk_header f ns i) l;
  sw_x : plain_scale (int16_at (disk_header f ns i) 71) -> coordinate (disk_header f' ns i) 73 71 = coordinate (disk_header f ns i) 77 71;
  sw_y : plain_scale (int16_at (disk_header f ns i) 71) -> coordinate (disk_header f' ns i) 77 71 = coordinate (disk_header f ns i) 73 71;
  sw_rest : plain_scale (int16_at (disk_header f ns i) 71) ->
    forall l, In l [81; 85; 181; 185] -> coordinate (disk_header f' ns i) l 71 = coordinate (disk_header f ns i) l 71 }.

(** The block of b traces a trace i of a process that has the traces d belongs to: its
    first trace and its length. *)
Definition block_first (d : piece) (b i : Z) : Z := global_offset d + b * ((i - global_offset d) / b).
Definition block_count (d : piece) (b i : Z) : Z := Z.min b (global_offset d + local_size d - block_first d b i).
(** A process, counted from 0, has the trace i among the traces d. *)
Definition process_has (nt p : Z) (d : piece) (i : Z) : Prop := exists r, 0 <= r < p /\ block_decomposition nt p r = Some d /\ global_offset d <= i < global_offset d + local_size d.

(** The sample is the number x, in single precision. *)
Definition sample_is (w : Z) (x : Z) : Prop := is_finite (dec_f w) = true /\ B2R (dec_f w) = single (IZR x).
(** What -t gives sample k of trace i in a block of [count] traces that begins with trace
    [first]: a number, or nothing when the sample is left as it was. *)
Definition line_written (first count ns i k : Z) : option Z :=
  let x := (i - first) * ns + k in
  if x <? count - 1 + ns then Some (2 * Z.max 0 (x - (count - 1)) + first) else None.
(** No coordinate of the traces is scaled. *)
Definition unscaled (f : file) (nt ns : Z) : Prop := forall i, 0 <= i < nt -> int16_at (disk_header f ns i) 71 = 0 \/ int16_at (disk_header f ns i) 71 = 1.
