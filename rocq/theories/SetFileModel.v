(** Model of Set::startSingle on files (src/Flow/Set.cc:171-265) for a list of
    operations that does not change traces: which calls every rank makes on the output
    file of one group of input files.

    Simplifications: the sizes of the collective calls (the [sizes] of the object layer)
    are arbitrary; the calls with a null pointer and no traces (Set.cc:251, 261) are
    those with an empty buffer, since for no traces neither the samples nor the metadata
    are looked at (segy_utils.cc:19-21, 130-132). *)
From Verif Require Import Base DecompModel CharEncModel LayoutModel DataIOModel RuleModel DoubleModel ParamModel FileModel SortModel FlowModel.

(** Set.hh:164-196: the rule of a set without operations, Rule({PIOL_META_COPY}). *)
Definition set_rule : rule := newRule [0] true false false.

(** Rule.cc:372-378 *)
Definition paramMem (r : rule) : Z :=
  counts r MLong * 8 + counts r MShort * 2 + counts r MFloat * 8 + counts r MIndex * 8 + (if counts r MCopy =? 0 then 0 else 240).

(** Set.cc:218-247: block b of a file; the result is the write call it makes. *)
Definition set_block (maxSize : Z) (sizes : nat -> list Z) (rl : rule) (srt : sorter) (rd : reader) (f : file) (ilst olst : list Z) (b : nat * nat) : option wop :=
  let '(i, n) := b in
  obind (readTraceNonContiguous maxSize (sizes i) rd (map (fun s => nth (i + s) ilst 0) (seq 0 n)) (Some (fun _ => 0)) (Some (newParam rl (Z.of_nat n))) 0 f) (fun '(trc, prm) =>
  obind trc (fun trc => obind prm (fun prm =>
  let idx := srt nat (fun s1 s2 => nth (i + s1) olst 0 <? nth (i + s2) olst 0) (seq 0 n) in
  let js := List.combine (seq 0 n) (map Z.of_nat idx) in
  obind (scatter_prm prm 0 js (newParam rl (Z.of_nat n))) (fun bprm =>
  Some (WTrace (sizes i) (Listed (map (fun s => nth (i + s) olst 0) idx)) (Some (scatter_trc (r_ns rd) trc js (fun _ => 0))) (Some bprm) 0))))).

(** Set.cc:209-263: the calls of one file of the group. *)
Definition set_file (maxSize : Z) (sizes : nat -> list Z) (rl : rule) (srt : sorter) (max biggest : nat) (rf : reader * file) (fd : fdesc) : option (list wop) :=
  let lnt := length (f_ilst fd) in
  obind (omap (set_block maxSize sizes rl srt (fst rf) (snd rf) (f_ilst fd) (f_olst fd)) (block_list max lnt)) (fun ws =>
  Some (ws ++ map (fun e => WTrace (sizes (lnt + e)%nat) (Listed []) (Some (fun _ => 0)) (Some (newParam rl 0)) 0) (seq 0 (extra_blocks max biggest lnt)))).

(** Stands for a file that does not exist. *)
Definition no_fd : fdesc := mkFd (0, 0) 0 [] [].
(** Set.cc:211: the largest number of local traces of file k over the p ranks;
    [fds r] are the files of the group on rank r. *)
Definition set_biggest (p : nat) (fds : nat -> list fdesc) (k : nat) : nat :=
  fold_left Nat.max (map (fun r => length (f_ilst (nth k (fds r) no_fd))) (seq 0 p)) 0%nat.

(** Set.cc:174-265: all the calls rank r of p makes on the output file of a group [g].
    [None]: undefined. *)
Definition set_calls (maxSize : Z) (sizes : nat -> nat -> list Z) (rl : rule) (srt : sorter) (outmsg : list Z) (g : list (reader * file)) (fds : nat -> list fdesc) (p r : nat) : option (list wop) :=
  match g with
  | [] => Some []
  | (rd, f0) :: _ =>
    let max := Z.to_nat (max_block (r_ns rd) (paramMem rl)) in
    obind (omap (fun k => set_file maxSize (sizes k) rl srt max (set_biggest p fds k) (nth k g (rd, f0)) (nth k (fds r) no_fd)) (seq 0 (length g))) (fun ws =>
    Some ([WNs (r_ns rd); WInc (r_inc rd); WText outmsg] ++ concat ws))
  end.

(** The files of a group, and what Set::add (Set.cc:65-85) makes of them on rank r of p;
    [fl] are the added files with their keys: files have the same key when they have the
    same number of samples and the same interval. *)
Definition group_members (key : gkey) (fl : list (gkey * (reader * file))) : list (reader * file) := map snd (filter (fun x => gkeqb (fst x) key) fl).
Definition group_files (key : gkey) (fl : list (gkey * (reader * file))) (p r : nat) : list fdesc :=
  group key (add_files (Z.of_nat p) (Z.of_nat r) (map (fun x => (fst x, r_nt (fst (snd x)))) fl)).
