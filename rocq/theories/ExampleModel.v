(** Model of examples/creadwrite.c: a program that copies a file through the library,
    block by block, on several processes.

    Simplifications: the sizes of the collective calls (the [sizes] of the object layer)
    and the contents of the fresh buffers are arbitrary; PIOL_ExSeis_isErr only ends the
    program when an error was recorded, and is not modelled as a step; the debug asserts
    are modelled by [debug_asserts]. *)
From Verif Require Import Base DecompModel CharEncModel LayoutModel DataIOModel RuleModel DoubleModel ParamModel FileModel.

(** src/Param.cc:23-26 and PIOL_C_bindings.cc, PIOL_File_Param_new with a null rule: the
    rule is Rule(true, true). *)
Definition default_rule : rule := newRule [] true true false.

(** PIOL_C_bindings.cc:294-330: the text goes through a C string. *)
Fixpoint c_string (s : list Z) : list Z :=
  match s with [] => [] | c :: r => if c =? 0 then [] else c :: c_string r end.

(** creadwrite.c:132-136, SourceX1600Y2400 for entry i: xSrc is 20, ySrc is 21; the sum is
    of a converted size_t and a constant. *)
Definition source_1600_2400 (off i : Z) (p : param) : option param :=
  obind (setPrm i 20 (VF (dadd (d_of_Z off) (d_of_Z 1600))) p) (fun p =>
  setPrm i 21 (VF (dadd (d_of_Z off) (d_of_Z 2400))) p).
(** creadwrite.c:55-59: the changes of the metadata of one block. *)
Definition mod_params (fprm : option (Z -> Z -> param -> option param)) (off tcnt : Z) (p : param) : option param :=
  match fprm with
  | None => Some p
  | Some g => fold_left (fun op i => obind op (g off i)) (zr tcnt) (Some p)
  end.

(** creadwrite.c:32-66, one block; the result is the write call it makes.  The changes of
    the samples (-t) are not modelled. *)
Definition rw_block (maxSize : Z) (sizes : Z -> Z -> list Z) (m0 : Z -> Z -> mem) (rd : reader) (f : file)
    (fprm : option (Z -> Z -> param -> option param)) (b : Z * Z) : option wop :=
  let '(off, tcnt) := b in
  obind (readTrace maxSize (sizes off tcnt) rd off tcnt (Some (m0 off tcnt)) (Some (newParam default_rule tcnt)) 0 f) (fun '(trc, prm) =>
  obind prm (fun prm =>
  obind (mod_params fprm off tcnt prm) (fun prm =>
  Some (WTrace (sizes off tcnt) (Range off tcnt) trc (Some prm) 0)))).
(** creadwrite.c:44: what the assert of a debug build asks of a block. *)
Definition debug_asserts (ns : Z) (b : Z * Z) : bool := 0 <? u64 (snd b * getDFSz ns).

(** creadwrite.c:84-88: the blocks of a rank, (offset, count); [fuel] bounds the loop. *)
Fixpoint rw_loop (fuel : nat) (goff lnt tcnt i : Z) : list (Z * Z) :=
  match fuel with
  | O => []
  | S fuel => if i <? lnt then (u64 (goff + i), if u64 (i + tcnt) <? lnt then tcnt else u64 (lnt - i)) :: rw_loop fuel goff lnt tcnt (u64 (i + tcnt)) else []
  end.
Definition flag (b : bool) : Z := if b then 1 else 0.
(** creadwrite.c:78-92: all the calls of a rank.  [None] is the division by zero of line
    82. *)
Definition rw_calls (goff lnt biggest tcnt : Z) : option (list (Z * Z)) :=
  if tcnt =? 0 then None else
  let extra := u64 (biggest / tcnt - lnt / tcnt + flag (0 <? biggest mod tcnt) - flag (0 <? lnt mod tcnt)) in
  Some (rw_loop (S (Z.to_nat lnt)) goff lnt tcnt 0 ++ repeat (goff, 0) (Z.to_nat extra)).
(** creadwrite.c:120-121 *)
Definition rw_tcnt (memmax ns : Z) : Z := memmax / (if getMDSz <? getDFSz ns then getDFSz ns else getMDSz).
(** The traces of rank r; the largest number of traces of a rank (79-80). *)
Definition rw_piece (nt p r : Z) : piece := match block_decomposition nt p r with Some d => d | None => mkPiece 0 0 end.
Definition rw_biggest (nt p : Z) : Z := zmax (map (fun r => local_size (rw_piece nt p r)) (zr p)).

(** creadwrite.c:95-130: all the calls rank r of p makes to the output file [None]:
    undefined. *)
Definition creadwrite (maxSize : Z) (sizes : Z -> Z -> list Z) (m0 : Z -> Z -> mem) (rd : reader) (f : file) (memmax : Z)
    (fprm : option (Z -> Z -> param -> option param)) (p r : Z) : option (list wop) :=
  obind (block_decomposition (r_nt rd) p r) (fun dec =>
  obind (rw_calls (global_offset dec) (local_size dec) (rw_biggest (r_nt rd) p) (rw_tcnt memmax (r_ns rd))) (fun calls =>
  obind (omap (rw_block maxSize sizes m0 rd f fprm) calls) (fun ws =>
  Some ([WText (c_string (r_text rd)); WNs (r_ns rd); WNt (r_nt rd); WInc (r_inc rd)] ++ ws)))).
