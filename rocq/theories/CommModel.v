(** The log, the communicator and the distributed vector.
    Models /repo/src/Logger.cc, /repo/src/CommunicatorMPI.cc and
    /repo/include/ExSeisDat/utils/mpi/MPI_Distributed_vector.hh. *)
From Verif Require Import Base DecompModel.

(** ---- Logger ---- *)
(** Logger.hh:158-173.  Only [Error] is treated specially. *)
Inductive status := Note | Debug | Warning | Error | Request.
Definition status_eqb (a b : status) : bool :=
  match a, b with Error, Error | Warning, Warning | Request, Request | Debug, Debug | Note, Note => true | _, _ => false end.
(** Logger.hh:27-44.  Simplification: file, layer and message are left out. *)
Record item := mkItem { i_stat : status; i_verb : Z }.
(** Logger.hh:46-54 *)
Record logger := mkLogger { maxLevel : Z; loglist : list item; error : bool }.
(** Logger.hh:60-63 *)
Definition newLogger (lvl : Z) : logger := mkLogger lvl [] false.
(** Logger.cc:25-39 *)
Definition log_record (st : status) (verb : Z) (l : logger) : logger :=
  let l1 := if verb <=? maxLevel l then mkLogger (maxLevel l) (mkItem st verb :: loglist l) (error l) else l in
  if status_eqb st Error then mkLogger (maxLevel l1) (loglist l1) true else l1.
(** Logger.cc:12-23 *)
Definition log_record_if (st : status) (verb : Z) (cond : bool) (l : logger) : logger :=
  if cond then log_record st verb l else l.
(** Logger.cc:59-68; what is printed is returned. *)
Definition procLog (l : logger) : list item * logger := (loglist l, mkLogger (maxLevel l) [] (error l)).
(** Logger.cc:41-52 *)
Definition numStat (st : status) (l : logger) : nat := length (filter (fun i => status_eqb (i_stat i) st) (loglist l)).
(** Logger.cc:54-57 *)
Definition isErr (l : logger) : bool := error l.
(** A program's use of the log. *)
Inductive log_call := Rec (st : status) (verb : Z) | RecIf (st : status) (verb : Z) (cond : bool) | Proc.
Definition log_step (l : logger) (c : log_call) : logger :=
  match c with Rec s v => log_record s v l | RecIf s v b => log_record_if s v b l | Proc => snd (procLog l) end.
Definition log_run (l : logger) (cs : list log_call) : logger := fold_left log_step cs l.

(** ---- Communicator ---- *)
(** The value each process passes is a function of its rank in MPI_COMM_WORLD. *)
Definition sum_below (v : nat -> Z) (w : nat) : Z := zsum (map v (seq 0 w)).
(** MPI_Exscan over MPI_COMM_WORLD with MPI_SUM on 64-bit unsigned numbers; the
    receive buffer of rank 0 is not touched and was 0 (CommunicatorMPI.cc:227). *)
Definition exscan (v : nat -> Z) (w : nat) : Z := if Nat.eqb w 0 then 0 else u64 (sum_below v w).
(** CommunicatorMPI.cc:225-232; [crank w] is the rank of world process w in the
    communicator the object was made for. *)
Definition comm_offset (crank : nat -> nat) (v : nat -> Z) (w : nat) : Z := if Nat.eqb (crank w) 0 then 0 else exscan v w.
(** CommunicatorMPI.cc:193-223 for the p processes of the communicator, here all
    of MPI_COMM_WORLD: MPI_Allreduce. *)
Definition comm_sum (v : nat -> Z) (p : nat) : Z := u64 (sum_below v p).
Definition comm_max (v : nat -> Z) (p : nat) : Z := fold_left Z.max (map v (seq 1 (p - 1))) (v 0%nat).
Definition comm_min (v : nat -> Z) (p : nat) : Z := fold_left Z.min (map v (seq 1 (p - 1))) (v 0%nat).

(** ---- Distributed vector ---- *)
(** The elements in the windows of the ranks, by rank and local index. *)
Record dvec (V : Type) := mkDvec { dv_size : Z; dv_ranks : Z; dv_data : Z -> Z -> V }.
Arguments mkDvec {V} _ _ _. Arguments dv_size {V} _. Arguments dv_ranks {V} _. Arguments dv_data {V} _ _ _.
(** The window of a rank is allocated with MPI_Win_allocate(local_size, ...), whose
    size argument is in bytes (MPI_Distributed_vector.hh:86-91).  May an element of
    [ts] bytes at this place be accessed? *)
Definition window_bytes (n p r : Z) : Z := match block_decomposition n p r with Some pc => local_size pc | None => 0 end.
Definition access_ok (ts n p : Z) (l : location) : bool :=
  (loc_rank l <? p) && (0 <=? loc_index l) && ((loc_index l + 1) * ts <=? window_bytes n p (loc_rank l)).
(** MPI_Distributed_vector.hh:101-133.  [dbg]: is assert active?  [None]: the
    program is aborted by the assertion, or memory outside the window (or a rank
    that does not exist) is accessed.  Simplification: accesses are atomic. *)
Definition dv_set {V} (dbg : bool) (ts rank i : Z) (v : V) (d : dvec V) : option (dvec V) :=
  if dv_size d <? i then Some d else
  match block_decomposition_location (dv_size d) (dv_ranks d) i with
  | None => None
  | Some l => if dbg && negb (0 <? rank) then None else
    if access_ok ts (dv_size d) (dv_ranks d) l
    then Some (mkDvec (dv_size d) (dv_ranks d) (fun r k => if (r =? loc_rank l) && (k =? loc_index l) then v else dv_data d r k))
    else None
  end.
(** MPI_Distributed_vector.hh:135-169; [T()] is [zero]. *)
Definition dv_get {V} (dbg : bool) (ts : Z) (zero : V) (rank i : Z) (d : dvec V) : option V :=
  if dv_size d <? i then Some zero else
  match block_decomposition_location (dv_size d) (dv_ranks d) i with
  | None => None
  | Some l => if dbg && negb (0 <? rank) then None else
    if access_ok ts (dv_size d) (dv_ranks d) l then Some (dv_data d (loc_rank l) (loc_index l)) else None
  end.
(** A history of sets: (calling rank, index, value). *)
Fixpoint dv_sets {V} (dbg : bool) (ts : Z) (h : list (Z * Z * V)) (d : dvec V) : option (dvec V) :=
  match h with [] => Some d | (r, i, v) :: h => obind (dv_set dbg ts r i v d) (dv_sets dbg ts h) end.
