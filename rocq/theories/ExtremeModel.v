(** Model of util/minmax.cc: writes the traces with the smallest and the largest source,
    receiver and midpoint coordinates.

    Simplifications: the command line is not modelled; the gathers of the search see the
    shares of all ranks at once (C57 models the search). *)
From Verif Require Import Base DecompModel DataIOModel RuleModel DoubleModel ParamModel FileModel SortSpec SortModel MinMaxModel FloatModel SetOpsModel ToolModel ExampleModel.
Import ListNotations.
Open Scope Z_scope.

(** src/minmax.cc:25-41: every trace gets a parameter set of its own; the values searched
    are those of two entries. *)
Definition pair_at (m1 m2 : Z) (prm : param) (i : Z) : option trc :=
  obind (cpyPrm true i prm 0 (newParam (p_rule prm) 1)) (fun v =>
  obind (obind (getPrm 0 m1 v) asD) (fun x => obind (obind (getPrm 0 m2 v) asD) (fun y => Some (x, y)))).
(** What rank r of p brings to the three searches: the offset of its block and the pairs of
    source (20, 21), receiver (22, 23) and midpoint (24, 25) coordinates.
    util/minmax.cc:25-48. *)
Record share := mkShare { sh_off : Z; sh_src : list trc; sh_rcv : list trc; sh_cmp : list trc }.
Definition mm_share (maxSize : Z) (sizes : list Z) (rd : reader) (f : file) (p r : Z) : option share :=
  obind (block_decomposition (r_nt rd) p r) (fun d =>
  let lnt := local_size d in
  obind (readTrace maxSize sizes rd (global_offset d) lnt None (Some (newParam default_rule lnt)) 0 f) (fun '(_, prm) =>
  obind prm (fun prm =>
  obind (omap (pair_at 20 21 prm) (zr lnt)) (fun s =>
  obind (omap (pair_at 22 23 prm) (zr lnt)) (fun c =>
  obind (omap (pair_at 24 25 prm) (zr lnt)) (fun m =>
  Some (mkShare (global_offset d) s c m))))))).
(** util/minmax.cc:36-47: the twelve extremes.  A rank without traces looks at a parameter
    set of one trace that holds zeros (minmax.h:89-92). *)
Definition mm_extremes (maxSize : Z) (sizes : nat -> list Z) (rd : reader) (f : file) (p : nat) : option (list elem) :=
  obind (omap (fun r => mm_share maxSize (sizes r) rd f (Z.of_nat p) (Z.of_nat r)) (seq 0 p)) (fun sh =>
  let s := fun r => nth r sh (mkShare 0 [] [] []) in
  let zeros := (d_of_Z 0, d_of_Z 0) in
  Some (getMinMax zeros p (fun r => sh_off (s r)) (fun r => sh_src (s r)) ++
        getMinMax zeros p (fun r => sh_off (s r)) (fun r => sh_rcv (s r)) ++
        getMinMax zeros p (fun r => sh_off (s r)) (fun r => sh_cmp (s r)))).
(** util/minmax.cc:71-78: the first entry of the list that has the number. *)
Fixpoint place (n : Z) (us : list Z) (j : Z) : option Z :=
  match us with [] => None | u :: us => if n =? u then Some j else place n us (j + 1) end.
(** util/minmax.cc:67-79; tn is 5.  The two parameter sets have a rule each. *)
Definition mm_row (us : list Z) (tprm : param) (nums : list Z) (op : option param) (i : Z) : option param :=
  obind op (fun o =>
  let n := nth (Z.to_nat i) nums 0 in
  match place n us 0 with
  | None => Some o
  | Some j => obind (cpyPrm false j tprm i o) (setPrm i 5 (VI n))
  end).
Definition mm_params (us : list Z) (tprm : param) (nums : list Z) : option param :=
  let sz := Z.of_nat (length nums) in fold_left (mm_row us tprm nums) (zr sz) (Some (newParam default_rule sz)).
(** util/minmax.cc:68, 75: a sample of one where the trace was found, else zero. *)
Definition mm_trace (us nums : list Z) : mem := fun q =>
  match place (nth (Z.to_nat (q / 4)) nums 0) us 0 with
  | None => 0
  | Some _ => nth (Z.to_nat (q mod 4)) (le_bytes (enc_f (f_of_Z 1))) 0
  end.
(** util/minmax.cc:49-85 on rank r: the calls to the output file.  Only rank 0 has
    traces to write. *)
Definition minmax_calls (srt : sorter) (maxSize : Z) (sizes sizes2 sizes3 : nat -> list Z) (rd : reader) (f : file) (p r : nat) : option (list wop) :=
  obind (mm_extremes maxSize sizes rd f p) (fun es =>
  let nums := match r with O => map snd es | S _ => [] end in
  let us := uniqlist srt nums in
  obind (readTraceNonContiguous maxSize (sizes2 r) rd us None (Some (newParam default_rule (Z.of_nat (length us)))) 0 f) (fun '(_, t) =>
  obind t (fun t =>
  obind (mm_params us t nums) (fun o =>
  let sz := Z.of_nat (length nums) in
  Some [WNt sz; WNs 1; WInc (r_inc rd); WTrace (sizes3 r) (Range 0 sz) (Some (mm_trace us nums)) (Some o) 0])))).
