(** Model of examples/example2.c: the C example that copies a file in one go.

    Simplifications: as in ExampleModel.  The array of samples has room for local_nt times
    the input's number of samples (line 73); writing past its end is undefined. *)
From Verif Require Import Base DecompModel CharEncModel LayoutModel DataIOModel RuleModel DoubleModel ParamModel FileModel ExampleModel.
Import ListNotations.
Open Scope Z_scope.

(** example2.c:81-84: the header of the output, with the first two arguments as in the code. *)
Definition example2_head (rd : reader) : list wop :=
  [WNs (r_nt rd); WNt (r_ns rd); WText (c_string (r_text rd)); WInc (r_inc rd)].
(** example2.c:58-88: all the calls rank r of p makes to the output file.  The call of line
    88 takes as many samples for every trace as the writer was told. *)
Definition example2 (maxSize : Z) (sizes : Z -> Z -> list Z) (m0 : Z -> Z -> mem) (rd : reader) (f : file) (p r : Z) : option (list wop) :=
  obind (block_decomposition (r_nt rd) p r) (fun dec =>
  let off := global_offset dec in
  let lnt := local_size dec in
  obind (readTrace maxSize (sizes off lnt) rd off lnt (Some (m0 off lnt)) (Some (newParam default_rule lnt)) 0 f) (fun '(trc, prm) =>
  obind prm (fun prm =>
  let written_ns := w_ns (fold_left (fun w o => wlocal o w) (example2_head rd) w_init) in
  if lnt * written_ns <=? lnt * r_ns rd
  then Some (example2_head rd ++ [WTrace (sizes off lnt) (Range off lnt) trc (Some prm) 0])
  else None))).
