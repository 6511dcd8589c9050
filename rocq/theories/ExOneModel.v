(** Model of examples/example1.cc and examples/example1.c: programs that make a file of
    40000 traces of 1000 samples.

    Simplifications: as in CreateModel and CreateCModel; the assertion on local_nt * ns in
    example1.c:102 is compiled out, as in the default build. *)
From Verif Require Import Base DecompModel DataIOModel RuleModel DoubleModel ParamModel FileModel FloatModel AngleModel SetOpsModel ExampleModel CreateModel CreateCModel.
Import ListNotations.
Open Scope Z_scope.

(** example1.cc:45, example1.c:47-50 *)
Definition one_nt : Z := 40000.
Definition one_ns : Z := 1000.
(** example1.cc:46-47, example1.c:52-53: "the increment step between traces (microseconds)" *)
Definition one_inc : D := d_of_Z 4.
(** example1.cc:49-80: all the calls rank r of p makes; they are those of
    exampleCreateFile.cc, line by line. *)
Definition example1_cc (sizes1 sizes2 : list Z) (p r : Z) : option (list wop) := create_file sizes1 sizes2 one_nt one_ns one_inc p r.
(** example1.c:60-109: all the calls rank r of p makes. *)
Definition example1_c (sizes : list Z) (p r : Z) : option (list wop) :=
  obind (block_decomposition one_nt p r) (fun dec =>
  let off := global_offset dec in
  let lnt := local_size dec in
  obind (create_params_c off lnt) (fun prm =>
  Some [WNs one_ns; WNt one_nt; WInc one_inc; WText create_text;
        WTrace sizes (Range off lnt) (Some (create_samples off one_ns)) (Some prm) 0])).
