(** Model of util/assess.cc (listing of the SEG-Y files among the names a pattern finds) and
    of util/cropen.c (opening one file many times).

    Simplifications: globbing gives a list of names with their contents; characters are byte
    values in the C locale; printing, the command line and the verbosity are not modelled;
    closing a file has no effect on what others read. *)
From Verif Require Import Base DataIOModel DoubleModel FileModel.
Import ListNotations.
Open Scope Z_scope.

(** ---- the regular expressions of std::regex, extended grammar ---- *)
Inductive re := Nul | Eps | Any | Chr (c : Z) | Cat (a b : re) | Alt (a b : re) | Star (a : re).
(** std::regex_constants::icase in the C locale (assess.cc:42-44). *)
Definition lower (c : Z) : Z := if (65 <=? c) && (c <=? 90) then c + 32 else c.
Fixpoint nullable (r : re) : bool :=
  match r with Nul => false | Eps => true | Any => false | Chr _ => false | Cat a b => nullable a && nullable b | Alt a b => nullable a || nullable b | Star _ => true end.
Fixpoint deriv (c : Z) (r : re) : re :=
  match r with
  | Nul => Nul | Eps => Nul | Any => Eps | Chr d => if lower c =? lower d then Eps else Nul
  | Cat a b => if nullable a then Alt (Cat (deriv c a) b) (deriv c b) else Cat (deriv c a) b
  | Alt a b => Alt (deriv c a) (deriv c b) | Star a => Cat (deriv c a) (Star a)
  end.
(** std::regex_match: the whole name. Simplified: the matcher of the standard library is
    replaced by derivatives. *)
Definition regex_match (r : re) (s : list Z) : bool := nullable (fold_left (fun r c => deriv c r) s r).
(** ".*se?gy$" (assess.cc:42-44); the end is where regex_match ends anyway. *)
Definition segy_re : re := Cat (Star Any) (Cat (Chr 115) (Cat (Alt Eps (Chr 101)) (Cat (Chr 103) (Chr 121)))).
(** assess.cc:46-58: the number of names, and name, samples, traces, interval and text of
    each that matches. *)
Definition assess (maxSize : Z) (sizes : list Z) (names : list (list Z * file)) : option (nat * list (list Z * reader)) :=
  obind (omap (fun x => obind (open_file maxSize sizes (snd x)) (fun rd => Some (fst x, rd))) (filter (fun x => regex_match segy_re (fst x)) names)) (fun l =>
  Some (length names, l)).

(** ---- cropen.c ---- *)
(** A C string ends at its first zero (strlen). *)
Fixpoint c_string (s : list Z) : list Z := match s with [] => [] | c :: r => if c =? 0 then [] else c :: c_string r end.
(** cropen.c:26-33: strncmp over the shorter length. *)
Fixpoint same_prefix (a b : list Z) : bool := match a, b with x :: a, y :: b => (x =? y) && same_prefix a b | _, _ => true end.
(** cropen.c:66-70: one handle against the first reading. *)
Definition agrees (first h : reader) : bool :=
  same_prefix (c_string (r_text first)) (c_string (r_text h)) && (r_ns first =? r_ns h) && (r_nt first =? r_nt h) && deqb (r_inc first) (r_inc h).
(** cropen.c:60-76: round i opens fnum handles; the comparisons, fnum of them, are all with
    handle i.  A handle beyond the array is None. *)
Definition round_ok (fnum : nat) (opens : nat -> option reader) (first : reader) (i : nat) : option bool :=
  obind (omap opens (seq 0 fnum)) (fun files =>
  obind (omap (fun _ => nth_error files i) (seq 0 fnum)) (fun hs => Some (forallb (agrees first) hs))).
(** cropen.c:46-82: true if the program ends normally, false if it quits. *)
Fixpoint rounds_ok (fnum : nat) (opens : nat -> nat -> option reader) (first : reader) (is : list nat) : option bool :=
  match is with [] => Some true | i :: r => obind (round_ok fnum (opens i) first i) (fun b => if b then rounds_ok fnum opens first r else Some false) end.
Definition many_files (rnum fnum : nat) (first : option reader) (opens : nat -> nat -> option reader) : option bool :=
  obind first (fun first => rounds_ok fnum opens first (seq 0 rnum)).
