(** Model of the memory a process asks for while a set writes a file
    (src/Flow/Set.cc:203-263): the vectors allocated and released, in order.

    Counted: every std::vector whose length depends on the number of traces, samples or
    processes.  Not counted: what MPI allocates, objects of fixed size (file handles,
    TraceBlock, Param without its vectors), the lists of the file itself (ilst, olst)
    and unused capacity; operations that allocate are not modelled. *)
From Verif Require Import Base LayoutModel DataIOModel RuleModel DoubleModel ParamModel FlowModel SetFileModel.

Inductive event := Alloc (bytes : Z) | Free (bytes : Z).
Definition bytes_of (e : event) : Z := match e with Alloc n => n | Free n => - n end.

(** Param.cc:12-21: the bytes of the five vectors; sizes of Floating_point, Integer,
    int16_t, size_t and unsigned char. *)
Definition param_bytes (p : param) : Z :=
  8 * p_len p MFloat + 8 * p_len p MLong + 2 * p_len p MShort + 8 * p_len p MIndex + p_len p MCopy.

(** DataMPIIO.cc:481-524, n blocks of bsz bytes on one of p processes: the gathered sizes
    (496), released at 501, then for each call the lengths of randBlockView (76). *)
Definition list_events (p maxSize bsz : Z) (n : nat) : list event :=
  [Alloc (8 * p); Free (8 * p)] ++
  flat_map (fun b => [Alloc (4 * Z.of_nat (snd b)); Free (4 * Z.of_nat (snd b))])
    (block_list (Z.to_nat (maxSize / (if bsz =? 0 then 1 else bsz * 2))) n).
(** ObjectSEGY.cc:114-142, readDO and writeDO of a list: dooff. *)
Definition object_events (p maxSize ns : Z) (n : nat) : list event :=
  [Alloc (8 * Z.of_nat n)] ++ list_events p maxSize (getDOSz ns) n ++ [Free (8 * Z.of_nat n)].
(** ReadSEGY.cc:151-181 and WriteSEGY.cc:234-257, with samples and metadata: alloc. *)
Definition trace_events (p maxSize ns : Z) (n : nat) : list event :=
  [Alloc (getDOSz ns * Z.of_nat n)] ++ object_events p maxSize ns n ++ [Free (getDOSz ns * Z.of_nat n)].

(** Set.cc:218-247: a block of n traces: trc (220), prm (222), the read (225), sortlist
    (228), bIn->prm (232), bIn->trc (233), the write (245); all released at 247, in the
    reverse order. *)
Definition block_events (p maxSize : Z) (rl : rule) (ns : Z) (n : nat) : list event :=
  let trc := 4 * (Z.of_nat n * ns) in
  let prm := param_bytes (newParam rl (Z.of_nat n)) in
  let idx := 8 * Z.of_nat n in
  [Alloc trc; Alloc prm] ++ trace_events p maxSize ns n ++ [Alloc idx; Alloc prm; Alloc trc] ++ trace_events p maxSize ns n ++
  [Free trc; Free prm; Free idx; Free prm; Free trc].
(** Set.cc:249-262: a call without traces; no samples are read (251), so only the
    gathered sizes are allocated; the write has an empty buffer. *)
Definition empty_events (p maxSize : Z) (rl : rule) (ns : Z) : list event :=
  let prm := param_bytes (newParam rl 0) in
  list_events p maxSize (getDFSz ns) 0 ++ [Alloc prm] ++ trace_events p maxSize ns 0 ++ [Free prm].
(** Set.cc:209-263: one file with lnt local traces. *)
Definition file_events (p maxSize : Z) (rl : rule) (ns : Z) (max biggest lnt : nat) : list event :=
  flat_map (fun b => block_events p maxSize rl ns (snd b)) (block_list max lnt) ++
  flat_map (fun _ => empty_events p maxSize rl ns) (seq 0 (extra_blocks max biggest lnt)).
(** Set.cc:203-263: the files of a group; for each the largest and the own number of
    traces. *)
Definition group_events (p maxSize : Z) (rl : rule) (ns : Z) (counts : list (nat * nat)) : list event :=
  let max := Z.to_nat (max_block ns (paramMem rl)) in
  flat_map (fun c => file_events p maxSize rl ns max (fst c) (snd c)) counts.
