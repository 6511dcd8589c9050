(** Model of examples/exampleCreateFile.cc: a program that makes a new file through the
    library, on several processes.

    Simplifications: the sizes of the collective calls (the [sizes] of the object layer)
    are arbitrary; a float that is assigned to an integer is first turned into a double,
    which is exact. *)
From Verif Require Import Base DecompModel DataIOModel RuleModel DoubleModel ParamModel FileModel FloatModel AngleModel SetOpsModel ExampleModel.
Import ListNotations.
Open Scope Z_scope.

(** exampleCreateFile.cc:45-53: the entries of the trace with the number tn and the float
    k, in the order in which they are set.  xSrc is 20, ySrc 21, xRcv 22, yRcv 23, xCmp 24,
    yCmp 25, il 26, xl 27, tn 5.  The sums with 1600.0 are of doubles, those with 2400 of
    floats. *)
Definition create_values (k : F) (tn : Z) : list (Z * value) :=
  [(20, VF (dadd (d_of_Z 1600) (d_of_F k))); (21, VF (dadd (d_of_Z 2400) (d_of_F k)));
   (22, VF (dadd (d_of_Z 100000) (d_of_F k))); (23, VF (dadd (d_of_Z 3000000) (d_of_F k)));
   (24, VF (dadd (d_of_Z 10000) (d_of_F k))); (25, VF (dadd (d_of_Z 4000) (d_of_F k)));
   (26, VF (d_of_F (fadd (f_of_Z 2400) k))); (27, VF (d_of_F (fadd (f_of_Z 1600) k)));
   (5, VI tn)].
(** A sequence of calls of setPrm for one trace. *)
Definition set_all (j : Z) (l : list (Z * value)) (p : param) : option param :=
  fold_left (fun op x => obind op (setPrm j (fst x) (snd x))) l (Some p).
(** exampleCreateFile.cc:43-54: the loop over the traces of a rank; k is float(offset + j). *)
Definition create_params (off lnt : Z) : option param :=
  fold_left (fun op j => obind op (set_all j (create_values (f_of_Z (u64 (off + j))) (u64 (off + j))))) (zr lnt) (Some (newParam default_rule lnt)).
(** exampleCreateFile.cc:58-61: the vector of floats, as memory. *)
Definition create_samples (off ns : Z) : mem :=
  fun q => nth (Z.to_nat (q mod 4)) (le_bytes (enc_f (f_of_Z (u64 (off * ns + q / 4))))) 0.
(** exampleCreateFile.cc:39: "Test file\n" *)
Definition create_text : list Z := [84; 101; 115; 116; 32; 102; 105; 108; 101; 10].
(** exampleCreateFile.cc:22-63: all the calls rank r of p makes. *)
Definition create_file (sizes1 sizes2 : list Z) (nt ns : Z) (inc : D) (p r : Z) : option (list wop) :=
  obind (block_decomposition nt p r) (fun dec =>
  let off := global_offset dec in
  let lnt := local_size dec in
  obind (create_params off lnt) (fun prm =>
  Some [WNs ns; WNt nt; WInc inc; WText create_text;
        WTrace sizes1 (Range off lnt) None (Some prm) 0;
        WTrace sizes2 (Range off lnt) (Some (create_samples off ns)) None 0])).
