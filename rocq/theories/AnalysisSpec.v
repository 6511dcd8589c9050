(** What a report about a trace has to say. *)
From Coq Require Import Reals.
From Verif Require Import Base DataIOModel FileSpec CopySpec SetExtremeSpec AnalysisModel.
Open Scope Z_scope.

(** The six coordinates of a report are those of the header h, as close as doubles allow. *)
Definition tells_places (o : report) (h : Z -> Z) : Prop :=
  shows (p_xSrc o) (coordinate h 73 71) /\ shows (p_ySrc o) (coordinate h 77 71) /\ shows (p_xRcv o) (coordinate h 81 71) /\ shows (p_yRcv o) (coordinate h 85 71) /\
  shows (p_xCmp o) (coordinate h 181 71) /\ shows (p_yCmp o) (coordinate h 185 71).
(** The two lines of a report are those of the header. *)
Definition tells_lines (o : report) (h : Z -> Z) : Prop := p_il o = int32_at h 189 /\ p_xl o = int32_at h 193.
