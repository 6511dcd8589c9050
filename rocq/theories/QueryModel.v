(** Rules with the null pointers that looking up entries leaves behind.  Models
    /repo/src/Rule.cc:355-359 (getEntry) and what the other functions of Rule and the
    header functions do with such a pointer. *)
From Verif Require Import Base DataIOModel RuleModel ParamModel SignalModel.
Import ListNotations.
Open Scope Z_scope.

(** A rule, and the metadata whose entry in translate is a null pointer. *)
Record qrule := mkQ { q_rule : rule; q_null : list Z }.
Definition is_null (m : Z) (q : qrule) : bool := existsb (Z.eqb m) (q_null q).
Definition clean (q : qrule) : bool := match q_null q with [] => true | _ => false end.
(** Rule.cc:355-359: translate[entry] makes a null entry if there is none. *)
Definition q_get (m : Z) (q : qrule) : option entry * qrule :=
  match lookup m (translate (q_rule q)) with
  | Some e => (Some e, q)
  | None => (None, if is_null m q then q else mkQ (q_rule q) (m :: q_null q))
  end.
(** Rule.cc:308-353: entry->type() of a null entry (line 315), or t.second->type() of any
    other null entry in the renumbering loop (line 345), is undefined. *)
Definition q_rm (m : Z) (q : qrule) : outcome qrule :=
  if is_null m q then Undefined else
  match lookup m (translate (q_rule q)) with
  | None => Done q
  | Some _ => if clean q then Done (mkQ (rmRule m (q_rule q)) []) else Undefined
  end.
(** Rule.cc:252-298: addLong, addShort, addSEGYFloat, addIndex remove first. *)
Definition q_entry (t : mdtype) (m loc scal : Z) (q : qrule) : outcome qrule :=
  obnd (q_rm m q) (fun q => Done (mkQ (add_entry t m loc scal (q_rule q)) (q_null q))).
(** Rule.cc:300-306: translate[PIOL_META_COPY] = ... also replaces a null entry. *)
Definition q_copy (q : qrule) : qrule :=
  if counts (q_rule q) MCopy =? 0 then mkQ (addCopy (q_rule q)) (filter (fun k => negb (k =? META_COPY)) (q_null q)) else q.
(** Rule.cc:103-226: an entry that is found, null or not, is left alone. *)
Definition q_add (m : Z) (q : qrule) : bool * qrule :=
  if is_null m q then (false, q) else (fst (addRule m (q_rule q)), mkQ (snd (addRule m (q_rule q))) (q_null q)).
(** Rule.cc:228-250 *)
Definition q_extent (q : qrule) : outcome (Z * qrule) :=
  if negb (r_full (q_rule q)) && r_bad (q_rule q) && negb (clean q) then Undefined
  else Done (fst (extent (q_rule q)), mkQ (snd (extent (q_rule q))) (q_null q)).
(** segy_utils.cc:127-203: every entry is dereferenced for every trace (line 158). *)
Definition q_extract (sz : Z) (m : mem) (b0 : Z) (q : qrule) (p : param) (stride skip : Z) : outcome param :=
  if (0 <? sz) && negb (clean q) then Undefined
  else match extractParam sz m b0 p stride skip with Some p => Done p | None => Undefined end.
(** segy_utils.cc:16-125 (line 55) *)
Definition q_insert (sz : Z) (q : qrule) (p : param) (buf : mem) (stride skip : Z) : outcome mem :=
  if (0 <? sz) && negb (clean q) then Undefined
  else match insertParam sz p buf stride skip with Some b => Done b | None => Undefined end.

(** Histories of calls including lookups. *)
Inductive qop := QGet (m : Z) | QAdd (m : Z) | QEntry (t : mdtype) (m loc scal : Z) | QCopy | QRm (m : Z) | QExtent.
Definition q_step (q : qrule) (o : qop) : outcome qrule :=
  match o with
  | QGet m => Done (snd (q_get m q))
  | QAdd m => Done (snd (q_add m q))
  | QEntry t m loc scal => q_entry t m loc scal q
  | QCopy => Done (q_copy q)
  | QRm m => q_rm m q
  | QExtent => obnd (q_extent q) (fun r => Done (snd r))
  end.
Fixpoint q_run (os : list qop) (q : qrule) : outcome qrule :=
  match os with [] => Done q | o :: os => obnd (q_step q o) (q_run os) end.

(** ---- parameter sets whose rule is changed later ---- *)
(** Param.h: Param keeps a shared pointer to its rule, and arrays whose lengths were worked
    out when it was made (Param.cc:12-21). *)
Definition with_rule (p : param) (r : rule) : param := mkParam r (p_sz p) (p_len p) (p_at p).
