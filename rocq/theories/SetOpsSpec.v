(** What a chain of trace operations means for a file. *)
From Flocq Require Import IEEE754.BinarySingleNaN.
From Verif Require Import Base DataIOModel FileSpec FloatModel SignalModel SetOpsModel.
Import ListNotations.
Open Scope Z_scope.

(** The samples of trace i of a file as floats. *)
Definition floats_at (f : file) (ns i : Z) : list F := map (fun k => dec_f (disk_sample f ns i k)) (zr ns).
(** One operation after the other on a trace. *)
Fixpoint chain (fs : list trace_op) (s : list F) : outcome (list F) :=
  match fs with [] => Done s | f :: fs => obnd (f s) (chain fs) end.
(** The operation does not change the number of samples. *)
Definition keeps (f : trace_op) : Prop := forall s t, f s = Done t -> length t = length s.
(** The trace header of trace b of f' is byte for byte that of trace a of f. *)
Definition same_header (f : file) (a : Z) (f' : file) (b ns : Z) : Prop := forall x, 0 <= x < 240 -> disk_header f' ns b x = disk_header f ns a x.
