(** Model of examples/exampleCreateFile.c: the C version of the program that makes a file.

    Simplifications: as in CreateModel; the bindings of PIOL_C_bindings.cc forward each call;
    the assertion on line 51 is compiled out, as in the default build. *)
From Verif Require Import Base DecompModel DataIOModel RuleModel DoubleModel ParamModel FileModel FloatModel AngleModel SetOpsModel ExampleModel CreateModel.
Import ListNotations.
Open Scope Z_scope.

(** exampleCreateFile.c:38-47: k is a float, tn the trace number; in-line, cross-line and
    trace number are sums of integers. *)
Definition create_values_c (k : F) (tn : Z) : list (Z * value) :=
  [(20, VF (dadd (d_of_Z 1600) (d_of_F k))); (21, VF (dadd (d_of_Z 2400) (d_of_F k)));
   (22, VF (dadd (d_of_Z 100000) (d_of_F k))); (23, VF (dadd (d_of_Z 3000000) (d_of_F k)));
   (24, VF (dadd (d_of_Z 10000) (d_of_F k))); (25, VF (dadd (d_of_Z 4000) (d_of_F k)));
   (26, VI (s64 (2400 + tn))); (27, VI (s64 (1600 + tn))); (5, VI (s64 tn))].
(** exampleCreateFile.c:36-48 *)
Definition create_params_c (off lnt : Z) : option param :=
  fold_left (fun op j => obind op (set_all j (create_values_c (f_of_Z (u64 (off + j))) (u64 (off + j))))) (zr lnt) (Some (newParam default_rule lnt)).
(** exampleCreateFile.c:13: the parameter inc is a size_t, and the double of main (line 78)
    is converted to it; writeInc (line 32) converts it back.  Out of range is undefined. *)
Definition c_interval (inc : D) : option D :=
  obind (dtrunc inc) (fun k => if (0 <=? k) && (k <? two64) then Some (d_of_Z k) else None).
(** exampleCreateFile.c:13-58: all the calls rank r of p makes. *)
Definition create_file_c (sizes : list Z) (nt ns : Z) (inc : D) (p r : Z) : option (list wop) :=
  obind (c_interval inc) (fun inc =>
  obind (block_decomposition nt p r) (fun dec =>
  let off := global_offset dec in
  let lnt := local_size dec in
  obind (create_params_c off lnt) (fun prm =>
  Some [WNs ns; WNt nt; WInc inc; WText create_text;
        WTrace sizes (Range off lnt) (Some (create_samples off ns)) (Some prm) 0]))).
