(** Model of util/traceanalysis.cc: what it prints about one trace.

    Simplification: the command line is not modelled; [tn] is the number given with -t (a
    size_t, 0 when none is given).  Numbers are modelled, not the digits printed for them. *)
From Verif Require Import Base DataIOModel RuleModel DoubleModel ParamModel FileModel SortModel ExampleModel.
Open Scope Z_scope.

(** The lines printed (traceanalysis.cc:57-86). *)
Record report := mkReport { p_xSrc : D; p_ySrc : D; p_xRcv : D; p_yRcv : D; p_xCmp : D; p_yCmp : D; p_il : Z; p_xl : Z }.
(** traceanalysis.cc:52-86: a parameter set for one trace, with the default rule; the lines are
    fetched as size_t. *)
Definition analyse (maxSize : Z) (sizes : list Z) (rd : reader) (f : file) (tn : Z) : option report :=
  obind (readTrace maxSize sizes rd tn 1 None (Some (newParam default_rule 1)) 0 f) (fun '(_, prm) =>
  obind prm (fun prm =>
  obind (obind (getPrm 0 20 prm) asD) (fun sx => obind (obind (getPrm 0 21 prm) asD) (fun sy =>
  obind (obind (getPrm 0 22 prm) asD) (fun rx => obind (obind (getPrm 0 23 prm) asD) (fun ry =>
  obind (obind (getPrm 0 24 prm) asD) (fun cx => obind (obind (getPrm 0 25 prm) asD) (fun cy =>
  obind (obind (getPrm 0 26 prm) asU) (fun il => obind (obind (getPrm 0 27 prm) asU) (fun xl =>
  Some (mkReport sx sy rx ry cx cy il xl))))))))))).
