(** What a SEG-Y file holds, independent of the reading and writing code: the
    sample and header bytes of a trace. *)
From Verif Require Import Base DataIOModel.

(** First byte of trace i in a file with ns samples per trace. *)
Definition trace_at (ns i : Z) : Z := 3600 + i * (240 + 4 * ns).
(** The bits of sample k of trace i: four bytes, most significant first. *)
Definition disk_sample (f : file) (ns i k : Z) : Z :=
  let a := trace_at ns i + 240 + 4 * k in
  16777216 * fbyte f a + 65536 * fbyte f (a + 1) + 256 * fbyte f (a + 2) + fbyte f (a + 3).
(** Byte x (0 to 239) of the header of trace i. *)
Definition disk_header (f : file) (ns i x : Z) : Z := fbyte f (trace_at ns i + x).
(** The file has nt complete traces. *)
Definition has_traces (f : file) (nt ns : Z) : Prop := trace_at ns nt <= fsize f.
Definition file_bytes (f : file) : Prop := forall q, is_byte (fbyte f q).
Definition mem_bytes (m : mem) : Prop := forall a, is_byte (m a).
