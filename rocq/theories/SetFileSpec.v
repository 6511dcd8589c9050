(** What it means that one file has a trace of another. *)
From Verif Require Import Base NumEncSpec DataIOModel DoubleModel CopySpec FileSpec FileModel FileSpec FlowModel SetFileModel.

(** Trace b of f' is byte for byte trace a of f: the 240 bytes of its header and its ns
    samples of four bytes. *)
Definition same_trace (f : file) (a : Z) (f' : file) (b ns : Z) : Prop :=
  forall x, 0 <= x < 240 + 4 * ns -> fbyte f' (trace_at ns b + x) = fbyte f (trace_at ns a + x).

(** The positions of a set of files: the local traces of the files of a group, on every
    rank, together fill an output of nt traces; [src b] is the file and the trace that
    goes to position b. *)
Record placed (p : nat) (nt : Z) (nts : list Z) (fds : nat -> list fdesc) (src : Z -> nat * Z) : Prop := mkPlaced {
  pl_length : forall r, (r < p)%nat -> length (fds r) = length nts;
  pl_pairs : forall r k, (r < p)%nat -> (k < length nts)%nat -> let fd := nth k (fds r) no_fd in
    length (f_olst fd) = length (f_ilst fd) /\ NoDup (f_olst fd) /\
    forall j, (j < length (f_ilst fd))%nat -> 0 <= nth j (f_olst fd) 0 < nt /\ 0 <= nth j (f_ilst fd) 0 < nth k nts 0 /\ src (nth j (f_olst fd) 0) = (k, nth j (f_ilst fd) 0);
  pl_cover : forall b, 0 <= b < nt -> exists r k j, (r < p)%nat /\ (k < length nts)%nat /\
    let fd := nth k (fds r) no_fd in (j < length (f_ilst fd))%nat /\ nth j (f_olst fd) 0 = b }.

(** A file a set can treat: a file of bytes with room for the two headers, IEEE samples, a
    positive sample interval, ns samples per trace, opened by the library. *)
Record set_input (maxSize ns : Z) (inc : D) (rf : reader * file) : Prop := mkSetInput {
  si_open : exists sizes, open_file maxSize sizes (snd rf) = Some (fst rf);
  si_bytes : file_bytes (snd rf);
  si_size : 3600 <= fsize (snd rf) < two64;
  si_ns : r_ns (fst rf) = ns;
  si_inc : r_inc (fst rf) = inc;
  si_format : int16_at (fbyte (snd rf)) 3225 <> 1;
  si_interval : 1 <= int16_at (fbyte (snd rf)) 3217 }.
