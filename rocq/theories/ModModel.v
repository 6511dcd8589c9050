(** Model of examples/modprm.c, and of the -t option of examples/creadwrite.c: programs
    that copy a file block by block and change it on the way.

    Simplifications: as in ExampleModel. *)
From Flocq Require Import Core IEEE754.BinarySingleNaN.
From Verif Require Import Base DecompModel CharEncModel LayoutModel DataIOModel RuleModel DoubleModel ParamModel FileModel FloatModel SetOpsModel ExampleModel.
Import ListNotations.
Open Scope Z_scope.

(** modprm.c:58-105, 150-170 and creadwrite.c:68-130: the calls of rank r of p to the
    output file, when a block (offset, count) leads to the call [blk] gives. *)
Definition block_program (blk : Z * Z -> option wop) (rd : reader) (memmax p r : Z) : option (list wop) :=
  obind (block_decomposition (r_nt rd) p r) (fun dec =>
  obind (rw_calls (global_offset dec) (local_size dec) (rw_biggest (r_nt rd) p) (rw_tcnt memmax (r_ns rd))) (fun calls =>
  obind (omap blk calls) (fun ws =>
  Some ([WText (c_string (r_text rd)); WNs (r_ns rd); WNt (r_nt rd); WInc (r_inc rd)] ++ ws)))).

(** modprm.c:45-52: the source coordinates of entry i, xSrc (20) and ySrc (21), change
    places.  Both are floating point entries of the rule used. *)
Definition swap_source (i : Z) (p : param) : option param :=
  obind (getPrm i 20 p) (fun x => obind (getPrm i 21 p) (fun y =>
  obind (setPrm i 20 y p) (setPrm i 21 x))).
(** modprm.c:36-56: one block; only headers are read and written. *)
Definition mod_block (maxSize : Z) (sizes : Z -> Z -> list Z) (rd : reader) (f : file) (b : Z * Z) : option wop :=
  let '(off, tcnt) := b in
  obind (readTrace maxSize (sizes off tcnt) rd off tcnt None (Some (newParam default_rule tcnt)) 0 f) (fun '(_, prm) =>
  obind prm (fun prm =>
  obind (fold_left (fun op i => obind op (swap_source i)) (zr tcnt) (Some prm)) (fun prm =>
  Some (WTrace (sizes off tcnt) (Range off tcnt) None (Some prm) 0)))).
(** modprm.c:116: the memory limit *)
Definition mod_memory : Z := 2147483648.
Definition modprm (maxSize : Z) (sizes : Z -> Z -> list Z) (rd : reader) (f : file) (p r : Z) : option (list wop) :=
  block_program (mod_block maxSize sizes rd f) rd mod_memory p r.

(** float(x) for a double. *)
Definition f_of_D (x : D) : F :=
  match x with
  | B754_zero s => B754_zero s
  | B754_infinity s => B754_infinity s
  | B754_nan => B754_nan
  | B754_finite s m e _ => @binary_normalize prec32 emax32 Hprec32 Hmax32 mode_NE (if s then Zneg m else Zpos m) e s
  end.
(** creadwrite.c:138-143, TraceLinearInc on the floats from index [base] of the buffer:
    float i becomes 2.0 * i + offset. *)
Definition linear_inc (off ns base : Z) (m : mem) : mem := fun q =>
  let i := q / 4 - base in
  if (0 <=? i) && (i <? ns) then nth (Z.to_nat (q mod 4)) (le_bytes (enc_f (f_of_D (dadd (dmul (d_of_Z 2) (d_of_Z i)) (d_of_Z off))))) 0 else m q.
(** creadwrite.c:49-53: the call for entry i of the block gets the address of float i. *)
Definition linear_block (off ns tcnt : Z) (m : mem) : mem := fold_left (fun m i => linear_inc off ns i m) (zr tcnt) m.
(** creadwrite.c:32-66 with the option -t. *)
Definition rw_block_t (maxSize : Z) (sizes : Z -> Z -> list Z) (m0 : Z -> Z -> mem) (rd : reader) (f : file)
    (fprm : option (Z -> Z -> param -> option param)) (b : Z * Z) : option wop :=
  let '(off, tcnt) := b in
  obind (readTrace maxSize (sizes off tcnt) rd off tcnt (Some (m0 off tcnt)) (Some (newParam default_rule tcnt)) 0 f) (fun '(trc, prm) =>
  obind prm (fun prm =>
  obind (mod_params fprm off tcnt prm) (fun prm =>
  Some (WTrace (sizes off tcnt) (Range off tcnt) (option_map (linear_block off (r_ns rd) tcnt) trc) (Some prm) 0)))).
Definition creadwrite_t (maxSize : Z) (sizes : Z -> Z -> list Z) (m0 : Z -> Z -> mem) (rd : reader) (f : file) (memmax : Z)
    (fprm : option (Z -> Z -> param -> option param)) (p r : Z) : option (list wop) :=
  block_program (rw_block_t maxSize sizes m0 rd f fprm) rd memmax p r.

(** creadwrite.c:145-218: what getopt returned, in order, as (option, optarg), changes the
    settings (input, output, memory limit, -p, -t).  [parse] is sscanf with %zu.  Line 167
    takes the length of optarg for every option; POSIX and glibc leave it null for an
    option without an argument, which is undefined. *)
Record settings := mkSettings { o_in : option (list Z); o_out : option (list Z); o_mem : Z; o_prm : bool; o_trc : bool }.
Inductive started := Undefined_start | Exit_start | Run (s : settings).
Fixpoint rw_options (parse : list Z -> option Z) (args : list (Z * option (list Z))) (s : settings) : started :=
  match args with
  | [] => Run s
  | (c, optarg) :: rest =>
    match optarg with
    | None => Undefined_start
    | Some a =>
      if c =? 105 then rw_options parse rest (mkSettings (Some a) (o_out s) (o_mem s) (o_prm s) (o_trc s))
      else if c =? 111 then rw_options parse rest (mkSettings (o_in s) (Some a) (o_mem s) (o_prm s) (o_trc s))
      else if c =? 109 then match parse a with
        | None => Exit_start
        | Some n => rw_options parse rest (mkSettings (o_in s) (o_out s) n (o_prm s) (o_trc s))
        end
      else if c =? 112 then rw_options parse rest (mkSettings (o_in s) (o_out s) (o_mem s) true (o_trc s))
      else if c =? 116 then rw_options parse rest (mkSettings (o_in s) (o_out s) (o_mem s) (o_prm s) true)
      else rw_options parse rest s
    end
  end.
Definition rw_start (parse : list Z -> option Z) (args : list (Z * option (list Z))) : started :=
  rw_options parse args (mkSettings None None 2147483648 false false).
