(** C71: matching by inline and crossline. *)
From Coq Require Import Lia.
From Flocq Require Import Core IEEE754.BinarySingleNaN.
From Verif Require Import Base FloatModel FourDModel FourDSpec FourDProofs FourDProperties.
Import ListNotations.
Open Scope Z_scope.

Lemma le_not_gt x y : fleb x y = true -> fltb y x = false.
Proof. unfold fleb, fltb, Bleb, Bltb, SpecFloat.SFleb, SpecFloat.SFltb. fold (Bcompare x y) (Bcompare y x). rewrite (Bcompare_swap _ _ y x). destruct (Bcompare y x) as [[| |]|]; cbn; congruence. Qed.
(** Every pair kept has the distance of its two traces; with the option for lines, the
    two traces have the same inline and the same crossline number. *)
Theorem C71_lines_partial : forall chk ix dm c1 mine cs m, fltb dm fmax = true -> Forall located c1 -> Forall located (concat cs) -> incl mine (concat cs) -> calc4DBin chk ix dm c1 mine cs = Some m ->
  forall a b d, In (a, b, d) (kept dm c1 m) -> exists t u, In t c1 /\ In u (concat cs) /\ a = tn t /\ b = tn u /\ d = dsr t u /\ (ix = true -> iln t = iln u /\ xln t = xln u).
Proof.
  intros chk ix dm c1 mine cs m D F1 F2 I H a b d K. destruct (C71_kept_partial chk ix dm c1 mine cs m F1 F2 I H a b d K) as (L & t & u & T & U & EA & EB & ED). exists t, u. do 4 (split; [assumption|]).
  unfold dval in ED. destruct ix; cbn [negb orb] in ED; [|split; [exact ED|discriminate]].
  destruct (Z.eqb_spec (iln t) (iln u)) as [E1|]; [destruct (Z.eqb_spec (xln t) (xln u)) as [E2|]|]; cbn [andb] in ED; [split; [exact ED|split; assumption]| |]; subst d; apply le_not_gt in L; congruence.
Qed.
Print Assumptions C71_lines_partial.
Example ex_lines : let s := fun n x i c => mkShot (f_of_Z x) f0 (f_of_Z (x + 10)) f0 n i c in
  option_map (fun m => map (fun k => (fst k)) (kept (f_of_Z 5) [s 0 0 1 1; s 1 4 1 2] m)) (calc4DBin false true (f_of_Z 5) [s 0 0 1 1; s 1 4 1 2] [s 0 0 1 2; s 1 2 1 1; s 2 9 1 1] [[s 0 0 1 2; s 1 2 1 1; s 2 9 1 1]]) = Some [(0, 1)] /\ fltb (f_of_Z 5) fmax = true.
Proof. cbv zeta. split; vm_compute; reflexivity. Qed.
