(** Model of the file access layer: src/DataMPIIO.cc and src/ObjectSEGY.cc.

    A file is its size and a total byte function; the caller's memory is a byte
    function.  One MPI transfer moves n bytes: the j-th byte of the transfer is at
    file position [pos j] and at memory address [d + j].  Bytes are moved one after
    the other by a [step] (reading or writing), so every function below is written
    once for both directions, as the C++ does with its function pointer [fn].
    Sizes and offsets are unbounded integers here (no 64-bit wrap): the files of
    interest are smaller than 2^63 bytes. *)
From Verif Require Import Base LayoutModel.

Record file := mkFile { fsize : Z; fbyte : Z -> Z }.
Definition mem := Z -> Z.

Definition zr (n : Z) : list Z := zrange (Z.to_nat n).

(** MPI_File_read_at(_all): bytes past the end of the file are not delivered, the
    memory keeps its content there. *)
Definition read_step (f : file) (m : mem) (p a : Z) : mem :=
  if p <? fsize f then (fun b => if b =? a then fbyte f p else m b) else m.
(** MPI_File_write_at(_all): the file grows as needed. *)
Definition write_step (m : mem) (f : file) (p a : Z) : file :=
  mkFile (Z.max (fsize f) (p + 1)) (fun q => if q =? p then m a else fbyte f q).

Definition mpi_call {S} (step : S -> Z -> Z -> S) (pos : Z -> Z) (n d : Z) (s : S) : S :=
  fold_left (fun s j => step s (pos j) (d + j)) (zr n) s.

(** DataMPIIO.cc:35-55: byte j seen through the strided view *)
Definition viewpos (offset bsz osz j : Z) : Z := offset + osz * (j / bsz) + j mod bsz.
(** DataMPIIO.cc:67-101: byte j seen through the list view *)
Definition listpos (offs : list Z) (bsz j : Z) : Z := nth (Z.to_nat (j / bsz)) offs 0 + j mod bsz.

(** One invocation fn(file, off, d, count) made by contigIO. *)
Record call := mkCall { c_off : Z; c_mem : Z; c_count : Z }.

Definition zmax (l : list Z) : Z := fold_right Z.max 0 l.

(** sz/max + (sz % max > 0), DataMPIIO.cc:449, 500 *)
Definition ceil_calls (sz max : Z) : Z := sz / max + (if 0 <? sz mod max then 1 else 0).

(** the loop for (i = 0; i < sz; i += max), DataMPIIO.cc:452, 504; the fuel is sz *)
Fixpoint chunk_from (fuel : nat) (i sz max : Z) : list (Z * Z) :=
  match fuel with
  | O => []
  | S fu => if i <? sz then (i, Z.min (sz - i) max) :: chunk_from fu (i + max) sz max else []
  end.
Definition chunks (sz max : Z) : list (Z * Z) := chunk_from (Z.to_nat sz) 0 sz max.

(** DataMPIIO.cc:434-477.  [sizes] are the sizes on all ranks (the gather of line
    445); [None]: division by zero. *)
Definition contigIO_calls (maxSize : Z) (sizes : list Z) (offset sz d bsz osz : Z) : option (list call) :=
  let max := maxSize / osz in                                              (* 444 *)
  if (osz =? 0) || (max =? 0) then None else
  let remCall := ceil_calls (zmax sizes) max - ceil_calls sz max in         (* 447-450 *)
  Some (map (fun ic => mkCall (offset + osz * fst ic) (d + bsz * fst ic) (snd ic)) (chunks sz max)
        ++ repeat (mkCall 0 0 0) (Z.to_nat remCall)).

Fixpoint io_loop {S} (fn : nat -> call -> S -> option S) (k : nat) (cs : list call) (s : S) : option S :=
  match cs with
  | [] => Some s
  | c :: r => match fn k c s with Some s' => io_loop fn (k + 1) r s' | None => None end
  end.

(** Contiguous access, DataMPIIO.cc:380-385 (read) and 586-592 (write), through a
    view whose byte j is at position [view j]. *)
Definition contig_view {S} (step : S -> Z -> Z -> S) (view : Z -> Z) (maxSize : Z) (sizes : list Z)
    (offset sz d : Z) (s : S) : option S :=
  match contigIO_calls maxSize sizes offset sz d 1 1 with
  | None => None
  | Some cs => io_loop (fun _ c s => Some (mpi_call step (fun j => view (c_off c + j)) (c_count c) (c_mem c) s)) 0 cs s
  end.
Definition contig {S} (step : S -> Z -> Z -> S) := contig_view step (fun x => x).

(** readv 387-415, writev 551-584: set the view, then the contiguous access at 0 *)
Definition iov {S} (step : S -> Z -> Z -> S) (maxSize : Z) (isizes : list Z) (offset bsz osz nb d : Z) (s : S) : option S :=
  contig_view step (viewpos offset bsz osz) maxSize isizes 0 (nb * bsz) d s.

(** number of blocks in the k-th call of a rank with nb blocks *)
Definition kth_count (nb max : Z) (k : nat) : Z := Z.max 0 (Z.min (nb - Z.of_nat k * max) max).

(** Strided access, DataMPIIO.cc:417-431 and 594-612.  All ranks use the same bsz
    and osz (the same ns); the nested contigIO of step k gathers the block counts of
    that step. *)
Definition strided {S} (step : S -> Z -> Z -> S) (maxSize : Z) (sizes : list Z) (offset bsz osz nb d : Z) (s : S) : option S :=
  match contigIO_calls maxSize sizes offset nb d bsz osz with
  | None => None
  | Some cs =>
      io_loop (fun k c s => iov step maxSize (map (fun n => bsz * kth_count n (maxSize / osz) k) sizes)
                              (c_off c) bsz osz (c_count c) (c_mem c) s) 0 cs s
  end.

(** DataMPIIO.cc:481-533 with iol 146-175, for transfers that succeed. *)
Definition listIO_max (maxSize bsz : Z) : Z := maxSize / (if bsz =? 0 then 1 else bsz * 2).   (* 490 *)
Definition listIO_calls (maxSize : Z) (sizes : list Z) (bsz sz : Z) : option (list (Z * Z)) :=
  let max := listIO_max maxSize bsz in
  if max =? 0 then None else
  let remCall := ceil_calls (zmax sizes) max - ceil_calls sz max in         (* 492-499 *)
  Some (chunks sz max ++ repeat (0, 0) (Z.to_nat remCall)).
Definition listio {S} (step : S -> Z -> Z -> S) (maxSize : Z) (sizes : list Z) (bsz : Z) (offs : list Z) (d : Z) (s : S) : option S :=
  match listIO_calls maxSize sizes bsz (Z.of_nat (length offs)) with
  | None => None
  | Some cs =>
      Some (fold_left (fun s ic =>
              mpi_call step (listpos (skipn (Z.to_nat (fst ic)) offs) bsz) (snd ic * bsz) (d + fst ic * bsz) s) cs s)
  end.

(** ---- the collective operations a rank takes part in ---- *)
Inductive event := Gather | SetView | IOAll.
(** contigIO: the gather, then its calls *)
Definition contig_events (maxSize : Z) (sizes : list Z) (sz : Z) : option (list event) :=
  match contigIO_calls maxSize sizes 0 sz 0 1 1 with
  | None => None
  | Some cs => Some (Gather :: repeat IOAll (length cs))
  end.
Fixpoint strided_steps (maxSize : Z) (sizes : list Z) (bsz osz : Z) (k : nat) (cs : list call) : option (list event) :=
  match cs with
  | [] => Some []
  | c :: r =>
      match contig_events maxSize (map (fun n => bsz * kth_count n (maxSize / osz) k) sizes) (c_count c * bsz),
            strided_steps maxSize sizes bsz osz (k + 1) r with
      | Some e, Some er => Some (SetView :: e ++ SetView :: er)
      | _, _ => None
      end
  end.
Definition strided_events (maxSize : Z) (sizes : list Z) (bsz osz nb : Z) : option (list event) :=
  match contigIO_calls maxSize sizes 0 nb 0 bsz osz with
  | None => None
  | Some cs =>
      match strided_steps maxSize sizes bsz osz 0 cs with Some e => Some (Gather :: e) | None => None end
  end.
Definition list_events (maxSize : Z) (sizes : list Z) (bsz sz : Z) : option (list event) :=
  match listIO_calls maxSize sizes bsz sz with
  | None => None
  | Some cs => Some (Gather :: flat_map (fun _ => [SetView; IOAll; SetView]) cs)
  end.

(** DataMPIIO.cc:180-208 and MPI_max_array_length.hh:18-38: the default limit *)
Definition default_maxSize : Z := (2147483647 - (4096 - 4)) / 4.

(** ---- error codes; 0 is MPI_SUCCESS ---- *)
(** iol, DataMPIIO.cc:146-175: the result of [fn] (line 163) is dropped. *)
Definition iol_result (view io reset free : Z) : Z :=
  if negb (view =? 0) then view else if negb (reset =? 0) then reset else free.
(** listIO records an error iff iol returns one (512-518, 525-530). *)
Definition listIO_logs (view io reset free : Z) : bool := negb (iol_result view io reset free =? 0).
(** contigIO records an error iff fn returns one (458-463, 470-475). *)
Definition contigIO_logs (io : Z) : bool := negb (io =? 0).
(** readv/writev record an error if setting the view fails (402-408) and then do a
    contiguous access. *)
Definition iov_logs (view io : Z) : bool := negb (view =? 0) || contigIO_logs io.

(** ---- ObjectSEGY.cc ---- *)
(** readHO/writeHO 37-50 *)
Definition objHO {S} (step : S -> Z -> Z -> S) (maxSize : Z) (sizes : list Z) (d : Z) (s : S) : option S :=
  contig step maxSize sizes 0 getHOSz d s.
(** readDO/writeDO 52-67 *)
Definition objDO {S} (step : S -> Z -> Z -> S) (maxSize : Z) (sizes : list Z) (offset ns sz d : Z) (s : S) : option S :=
  contig step maxSize sizes (getDOLoc offset ns) (sz * getDOSz ns) d s.
(** readDOMD/writeDOMD 69-89 *)
Definition objDOMD {S} (step : S -> Z -> Z -> S) (maxSize : Z) (sizes : list Z) (offset ns sz d : Z) (s : S) : option S :=
  strided step maxSize sizes (getDOLoc offset ns) getMDSz (getDOSz ns) sz d s.
(** readDODF/writeDODF 91-111 *)
Definition objDODF {S} (step : S -> Z -> Z -> S) (maxSize : Z) (sizes : list Z) (offset ns sz d : Z) (s : S) : option S :=
  strided step maxSize sizes (getDODFLoc offset ns) (getDFSz ns) (getDOSz ns) sz d s.
(** list versions 114-210 *)
Definition objDO_list {S} (step : S -> Z -> Z -> S) (maxSize : Z) (sizes : list Z) (offs : list Z) (ns d : Z) (s : S) : option S :=
  listio step maxSize sizes (getDOSz ns) (map (fun o => getDOLoc o ns) offs) d s.
Definition objDOMD_list {S} (step : S -> Z -> Z -> S) (maxSize : Z) (sizes : list Z) (offs : list Z) (ns d : Z) (s : S) : option S :=
  listio step maxSize sizes getMDSz (map (fun o => getDOLoc o ns) offs) d s.
Definition objDODF_list {S} (step : S -> Z -> Z -> S) (maxSize : Z) (sizes : list Z) (offs : list Z) (ns d : Z) (s : S) : option S :=
  if ns =? 0 then Some s else                                              (* 180-182, 199-201 *)
  listio step maxSize sizes (getDFSz ns) (map (fun o => getDODFLoc o ns) offs) d s.
