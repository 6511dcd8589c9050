(** Model of util/verifysort.cc: does a file have its traces in the order asked for?

    Simplification: the command line is not modelled; [type] is the order given (35 when
    none is). What a rank prints, Success or Failure, is the boolean. *)
From Verif Require Import Base DecompModel DataIOModel RuleModel DoubleModel ParamModel FileModel SortModel ExampleModel.

(** util/verifysort.cc:44-57 on rank r of q, with sort.cc:403-422: the rank reads the
    metadata of its block of traces, with the default rule, and compares neighbours. *)
Definition verify_rank (maxSize : Z) (sizes : list Z) (type : Z) (rd : reader) (f : file) (q r : Z) : option bool :=
  obind (block_decomposition (r_nt rd) q r) (fun d =>
  let lnt := local_size d in
  obind (readTrace maxSize sizes rd (global_offset d) lnt None (Some (newParam default_rule lnt)) 0 f) (fun '(_, prm) =>
  obind prm (fun prm =>
  obind (omap (geo_at prm) (zr lnt)) (fun rows =>
  Some (checkOrder (getComp type) rows))))).
