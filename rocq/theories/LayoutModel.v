(** Model of the SEG-Y sizes and locations, include/ExSeisDat/PIOL/segy_utils.hh,
    in size_t arithmetic (Z, wrap modulo 2^64 written out). *)
From Verif Require Import Base.

(** segy_utils.hh:156-189 *)
Definition getTextSz : Z := 3200.
Definition getHOSz : Z := 3600.
Definition getMDSz : Z := 240.
(** segy_utils.hh:195-199 (T = float) *)
Definition getDFSz (ns : Z) : Z := u64 (ns * 4).
(** segy_utils.hh:206-210 *)
Definition getDOSz (ns : Z) : Z := u64 (getMDSz + getDFSz ns).
(** segy_utils.hh:219-223 *)
Definition getFileSz (nt ns : Z) : Z := u64 (getHOSz + u64 (nt * getDOSz ns)).
(** segy_utils.hh:231-235 *)
Definition getDOLoc (i ns : Z) : Z := getFileSz i ns.
(** segy_utils.hh:243-247 *)
Definition getDODFLoc (i ns : Z) : Z := u64 (getFileSz i ns + getMDSz).
(** segy_utils.hh:255-259; [None] is division by zero. *)
Definition getNt (fsz ns : Z) : option Z :=
  if getDOSz ns =? 0 then None else Some (u64 (fsz - getHOSz) / getDOSz ns).

(** segy_utils.hh:64-85: byte positions in the file header *)
Definition hdr_Interval : nat := 3216.
Definition hdr_NumSample : nat := 3220.
Definition hdr_Type : nat := 3224.
Definition hdr_Units : nat := 3254.
Definition hdr_SEGYFormat : nat := 3500.
Definition hdr_FixedTrace : nat := 3502.
Definition hdr_Extensions : nat := 3504.

(** src/ReadSEGY.cc:56-58 and 60: the number of samples is read as int16_t and
    assigned to a size_t (sign extension), then the number of traces follows
    from the file size.  Bytes b0,b1 are at [hdr_NumSample]. *)
Definition read_ns (b0 b1 : Z) : Z := u64 (s16 (Z.lor (Z.shiftl b0 8) b1)).
Definition read_nt (fsz b0 b1 : Z) : option Z := getNt fsz (read_ns b0 b1).
