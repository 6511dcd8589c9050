(** Lemmas about trace operations on the blocks of a set. *)
From Coq Require Import Reals Lra Permutation Sorted.
From Flocq Require Import Core IEEE754.BinarySingleNaN.
From Flocq Require IEEE754.Binary IEEE754.Bits.
From Verif Require Import Base DecompModel DecompSpec DecompProofs NumEncModel NumEncSpec NumEncProofs CharEncModel CharEncProofs LayoutModel LayoutProofs DataIOModel DataIOProofs
  RuleModel RuleProofs DoubleModel ParamModel ParamProofs HeaderProofs ScalarProofs FileSpec FileModel FileProofs WriteSpec WriteProofs ParamProperties ReadProofs OpenProofs FileProperties TraceProperties.
From Verif Require Import SortSpec SortModel FloatModel SignalModel FlowModel FlowProofs FlowProperties CopySpec CopyProofs ExampleModel ExampleProofs SetFileModel SetFileSpec SetFileProofs SetOutProofs SetOpsModel SetOpsSpec.
Import ListNotations.
Open Scope Z_scope.

Lemma dec_enc x : dec_f (enc_f x) = x.
Proof. unfold dec_f, enc_f, Bits.b32_of_bits, Bits.bits_of_b32. rewrite Bits.binary_float_of_bits_of_binary_float. apply Binary.B2BSN_BSN2B. Qed.
Lemma enc_range x : 0 <= enc_f x < 4294967296.
Proof. unfold enc_f, Bits.bits_of_b32. apply (Bits.bits_of_binary_float_range 23 8); reflexivity. Qed.
Lemma le_bytes_value w : 0 <= w < 4294967296 -> nth 0 (le_bytes w) 0 + 256 * nth 1 (le_bytes w) 0 + 65536 * nth 2 (le_bytes w) 0 + 16777216 * nth 3 (le_bytes w) 0 = w.
Proof. intros W. cbn [le_bytes nth]. Z.div_mod_to_equations. lia. Qed.
Lemma le_bytes_byte w n : is_byte (nth n (le_bytes w) 0).
Proof. unfold le_bytes, is_byte. destruct n as [|[|[|[|n]]]]; cbn [nth]; try (pose proof (Z.mod_pos_bound w 256); pose proof (Z.mod_pos_bound (w / 256) 256); pose proof (Z.mod_pos_bound (w / 65536) 256); pose proof (Z.mod_pos_bound (w / 16777216) 256); lia). destruct n; lia. Qed.
Lemma zr_length n : 0 <= n -> length (zr n) = Z.to_nat n.
Proof. intros N. unfold zr, zrange. rewrite map_length, seq_length. reflexivity. Qed.
Lemma zr_nth n k d : 0 <= k < n -> nth (Z.to_nat k) (zr n) d = k.
Proof.
  intros K. unfold zr, zrange. rewrite (nth_indep _ d (Z.of_nat 0)) by (rewrite map_length, seq_length; lia). rewrite map_nth, seq_nth by lia. lia.
Qed.
Lemma get_length ns m j : 0 <= ns -> length (get_trace ns m j) = Z.to_nat ns.
Proof. intros N. unfold get_trace. rewrite map_length. apply zr_length. exact N. Qed.
Lemma get_nth ns m j k : 0 <= k < ns -> nth (Z.to_nat k) (get_trace ns m j) f0 = dec_f (sample m (j * ns + k)).
Proof.
  intros K. unfold get_trace. rewrite (nth_indep _ f0 (dec_f (sample m (j * ns + 0)))) by (rewrite map_length, zr_length; lia).
  rewrite (map_nth (fun k => dec_f (sample m (j * ns + k))) (zr ns) 0). rewrite zr_nth by exact K. reflexivity.
Qed.
Lemma get_ext ns m t j : 0 <= ns -> length t = Z.to_nat ns -> (forall k, 0 <= k < ns -> dec_f (sample m (j * ns + k)) = nth (Z.to_nat k) t f0) -> get_trace ns m j = t.
Proof.
  intros N L H. apply (nth_ext _ _ f0 f0); [rewrite get_length, L by exact N; reflexivity|]. intros n Hn. rewrite get_length in Hn by exact N.
  rewrite <- (Nat2Z.id n). rewrite get_nth by lia. apply H. lia.
Qed.
Lemma put_same ns m j t : 0 <= ns -> length t = Z.to_nat ns -> get_trace ns (put_trace ns m j t) j = t.
Proof.
  intros N L. apply get_ext; [exact N|exact L|]. intros k K. rewrite <- (dec_enc (nth (Z.to_nat k) t f0)). f_equal. unfold sample, le32.
  assert (B : forall r, 0 <= r < 4 -> put_trace ns m j t (4 * (j * ns + k) + r) = nth (Z.to_nat r) (le_bytes (enc_f (nth (Z.to_nat k) t f0))) 0).
  { intros r R. unfold put_trace. replace (4 * (j * ns + k) + r - 4 * (j * ns)) with (r + k * 4) by lia. rewrite Z.div_add, Z.mod_add by lia. rewrite Z.div_small, Z.mod_small by lia.
    replace ((0 <=? r + k * 4) && (r + k * 4 <? 4 * ns)) with true by lia. reflexivity. }
  pose proof (B 0 ltac:(lia)) as B0. rewrite Z.add_0_r in B0. rewrite B0, (B 1), (B 2), (B 3) by lia. apply le_bytes_value, enc_range.
Qed.
Lemma put_other ns m j t i : 0 <= ns -> i <> j -> get_trace ns (put_trace ns m j t) i = get_trace ns m i.
Proof.
  intros N D. apply get_ext; [exact N|apply get_length; exact N|]. intros k K. rewrite get_nth by exact K. f_equal.
  assert (B : forall r, 0 <= r < 4 -> put_trace ns m j t (4 * (i * ns + k) + r) = m (4 * (i * ns + k) + r)).
  { intros r R. unfold put_trace. cbv zeta. destruct ((0 <=? _) && (_ <? 4 * ns)) eqn:E; [|reflexivity]. exfalso. apply D.
    apply (stride_same (4 * ns) i j (4 * (i * ns + k) + r) 0 (4 * ns)); lia. }
  unfold sample, le32. pose proof (B 0 ltac:(lia)) as B0. rewrite Z.add_0_r in B0. rewrite B0, (B 1), (B 2), (B 3) by lia. reflexivity.
Qed.
Lemma put_bytes ns m j t : mem_bytes m -> mem_bytes (put_trace ns m j t).
Proof. intros M q. unfold put_trace. cbv zeta. destruct (_ && _); [apply le_bytes_byte|apply M]. Qed.
(** The loop over the traces of a block. *)
Definition loop (f : trace_op) (ns : Z) (js : list Z) (om : option mem) : option mem :=
  fold_left (fun om j => obind om (fun m => match f (get_trace ns m j) with Done t => Some (put_trace ns m j t) | _ => None end)) js om.
Lemma loop_spec f ns : 0 <= ns -> keeps f -> forall js m, NoDup js -> mem_bytes m -> (forall j, In j js -> exists t, f (get_trace ns m j) = Done t) ->
  exists m', loop f ns js (Some m) = Some m' /\ mem_bytes m' /\ (forall j, In j js -> f (get_trace ns m j) = Done (get_trace ns m' j)) /\
  (forall j, ~ In j js -> get_trace ns m' j = get_trace ns m j).
Proof.
  intros N KF. unfold loop. induction js as [|j js IH]; intros m ND MB H.
  - exists m. split; [reflexivity|]. split; [exact MB|]. split; [intros j []|reflexivity].
  - inversion ND as [|? ? N1 N2]; subst. destruct (H j (or_introl eq_refl)) as (t & T). cbn [fold_left obind]. rewrite T.
    pose proof (KF _ _ T) as LT. rewrite get_length in LT by exact N.
    destruct (IH (put_trace ns m j t) N2 (put_bytes _ _ _ _ MB)) as (m' & E & MB' & A & B).
    { intros i I. rewrite put_other by (first [exact N|intros Q; subst i; contradiction]). apply H. right. exact I. }
    exists m'. split; [exact E|]. split; [exact MB'|]. split.
    + intros i [I|I].
      * subst i. rewrite T. f_equal. rewrite B by exact N1. symmetry. apply put_same; assumption.
      * rewrite <- (A i I). f_equal. symmetry. apply put_other; [exact N|]. intros Q; subst i; contradiction.
    + intros i I. rewrite B by (intros Q; apply I; right; exact Q). apply put_other; [exact N|]. intros Q; subst i. apply I. left. reflexivity.
Qed.
Lemma zr_nodup n : NoDup (zr n).
Proof. unfold zr, zrange. apply FinFun.Injective_map_NoDup; [intros a b; lia|apply seq_NoDup]. Qed.
Lemma zr_in n j : In j (zr n) <-> 0 <= j < n.
Proof. unfold zr, zrange. rewrite in_map_iff. split; [intros (k & <- & K); apply in_seq in K; lia|]. intros J. exists (Z.to_nat j). split; [lia|]. apply in_seq. lia. Qed.
(** The operations of a list, one after the other, on every trace of a block. *)
Lemma block_spec ns n : 0 <= ns -> forall fs m, Forall keeps fs -> mem_bytes m -> (forall j, 0 <= j < n -> exists t, chain fs (get_trace ns m j) = Done t) ->
  exists m', ops_block fs ns n m = Some m' /\ mem_bytes m' /\ forall j, 0 <= j < n -> chain fs (get_trace ns m j) = Done (get_trace ns m' j).
Proof.
  intros N. unfold ops_block. induction fs as [|f fs IH]; intros m KS MB H.
  - exists m. split; [reflexivity|]. split; [exact MB|reflexivity].
  - inversion KS as [|? ? K1 K2]; subst. cbn [chain] in H.
    destruct (loop_spec f ns N K1 (zr n) m (zr_nodup n) MB) as (m1 & E & MB1 & A & _).
    { intros j J. apply zr_in in J. destruct (H j J) as (t & T). destruct (f (get_trace ns m j)) as [u| |]; [exists u; reflexivity|discriminate|discriminate]. }
    destruct (IH m1 K2 MB1) as (m' & E' & MB' & B).
    { intros j J. destruct (H j J) as (t & T). rewrite (A j (proj2 (zr_in n j) J)) in T. cbn [obnd] in T. eauto. }
    exists m'. split; [|split; [exact MB'|]].
    + cbn [map calc kindeqb o_kind o_act negb obind]. change (in_place f ns n m) with (loop f ns (zr n) (Some m)). rewrite E. exact E'.
    + intros j J. cbn [chain]. rewrite (A j (proj2 (zr_in n j) J)). cbn [obnd]. apply B. exact J.
Qed.
Lemma floats_nth f ns i k : 0 <= k < ns -> nth (Z.to_nat k) (floats_at f ns i) f0 = dec_f (disk_sample f ns i k).
Proof.
  intros K. unfold floats_at. rewrite (nth_indep _ f0 (dec_f (disk_sample f ns i 0))) by (rewrite map_length, zr_length; lia).
  rewrite (map_nth (fun k => dec_f (disk_sample f ns i k)) (zr ns) 0). rewrite zr_nth by exact K. reflexivity.
Qed.
Lemma floats_length f ns i : 0 <= ns -> length (floats_at f ns i) = Z.to_nat ns.
Proof. intros N. unfold floats_at. rewrite map_length. apply zr_length. exact N. Qed.

(** What is known about the samples of a call after the operations. *)
Definition op_result (fs : list trace_op) (src : Z -> file * Z) (ns : Z) (b k w : Z) : Prop :=
  exists t, chain fs (floats_at (fst (src b)) ns (snd (src b))) = Done t /\ length t = Z.to_nat ns /\ nth (Z.to_nat k) t f0 = dec_f w.
Lemma chain_keeps fs : Forall keeps fs -> forall s t, chain fs s = Done t -> length t = length s.
Proof.
  induction 1 as [|f fs K F IH]; intros s t E; cbn [chain] in E; [injection E as <-; reflexivity|].
  destruct (f s) as [u| |] eqn:U; cbn [obnd] in E; try discriminate. rewrite (IH _ _ E). apply K. exact U.
Qed.
Lemma with_ops_spec fs src nt ns rl o : 0 <= ns -> Forall keeps fs -> good_write nt ns o -> call_full src ns rl o ->
  (forall b, 0 <= b < nt -> exists t, chain fs (floats_at (fst (src b)) ns (snd (src b))) = Done t) ->
  exists o', with_ops fs ns o = Some o' /\ good_write nt ns o' /\ call_made src (op_result fs src ns) ns rl o' /\ (forall b, moved o b -> moved o' b).
Proof.
  intros N KS G CF H. destruct o as [| | | |sz t [m|] [q|] skip]; cbn [good_write call_full] in *; try contradiction.
  destruct G as (G1 & G2 & G3 & G4 & G5). destruct CF as (A1 & A2 & A3 & A4 & A5).
  assert (TB : forall j, 0 <= j < tcount t -> 0 <= tpos t j < nt).
  { intros j J. destruct t as [o n|l]; cbn [tcount tpos in_file] in *; [lia|]. destruct G1 as (FA & _). rewrite Forall_forall in FA. apply FA, nth_In. lia. }
  assert (GT : forall j, 0 <= j < tcount t -> get_trace ns m j = floats_at (fst (src (tpos t j))) ns (snd (src (tpos t j)))).
  { intros j J. specialize (A5 j J). destruct (src (tpos t j)) as (f, a). cbn [fst snd]. apply get_ext; [exact N|apply floats_length; exact N|]. intros k K. rewrite floats_nth by exact K. f_equal. apply A5. exact K. }
  destruct (block_spec ns (tcount t) N fs m KS (G3 m eq_refl)) as (m' & E & MB & B).
  { intros j J. rewrite (GT j J). apply H. apply TB. exact J. }
  exists (WTrace sz t (Some m') (Some q) skip). split; [cbn [with_ops]; rewrite E; reflexivity|]. split; [|split].
  - cbn [good_write]. split; [exact G1|]. split; [exact G2|]. split; [intros z Q; injection Q as <-; exact MB|]. split; [left; discriminate|exact G5].
  - cbn [call_made]. repeat (split; [assumption|]). intros j J. specialize (A5 j J). specialize (B j J). rewrite (GT j J) in B. unfold op_result. destruct (src (tpos t j)) as (f, a) eqn:S. cbn [fst snd] in *. split; [|apply A5].
    intros k K. exists (get_trace ns m' j). cbn [fst snd]. split; [exact B|]. split; [apply get_length; exact N|]. apply get_nth. exact K.
  - intros b (sz' & t' & trc & prm & sk & j & Q & J & TP). injection Q as <- <- <- <- <-. exists sz, t, (Some m'), (Some q), skip, j. auto.
Qed.
Lemma omap_app {A B} (f : A -> option B) : forall l1 l2, omap f (l1 ++ l2) = obind (omap f l1) (fun a => obind (omap f l2) (fun b => Some (a ++ b))).
Proof.
  induction l1 as [|x l1 IH]; intros l2; cbn [omap app obind]; [destruct (omap f l2); reflexivity|]. destruct (f x); [|reflexivity]. cbn [obind]. rewrite IH. destruct (omap f l1); [|reflexivity]. cbn [obind]. destruct (omap f l2); reflexivity.
Qed.
Lemma ops_list fs src nt ns rl : 0 <= ns -> Forall keeps fs -> (forall b, 0 <= b < nt -> exists t, chain fs (floats_at (fst (src b)) ns (snd (src b))) = Done t) ->
  forall ws, (forall o, In o ws -> good_write nt ns o /\ call_full src ns rl o) ->
  exists ws', omap (with_ops fs ns) ws = Some ws' /\ length ws' = length ws /\ (forall o, In o ws' -> good_write nt ns o /\ call_made src (op_result fs src ns) ns rl o) /\
  (forall o b, In o ws -> moved o b -> exists o', In o' ws' /\ moved o' b).
Proof.
  intros N KS H. induction ws as [|o ws IH]; intros A; [exists []; split; [reflexivity|]; split; [reflexivity|]; split; [intros o []|intros o b []]|].
  destruct (A o (or_introl eq_refl)) as (G & C). destruct (with_ops_spec fs src nt ns rl o N KS G C H) as (o' & E & G' & C' & MV).
  destruct IH as (ws' & E' & L & B & D); [intros; apply A; right; assumption|]. exists (o' :: ws'). cbn [omap]. rewrite E. cbn [obind]. rewrite E'. split; [reflexivity|]. split; [cbn [length]; congruence|]. split.
  - intros x [X|X]; [subst x; auto|apply B; exact X].
  - intros x b [X|X] M; [subst x; exists o'; split; [left; reflexivity|apply MV; exact M]|]. destruct (D x b X M) as (y & Y & MY). exists y. split; [right; exact Y|exact MY].
Qed.
Lemma obind_obind {A B C} (x : option A) (f : A -> option B) (g : B -> option C) : obind (obind x f) g = obind x (fun a => obind (f a) g).
Proof. destruct x; reflexivity. Qed.

Lemma set_ops_cons fs maxSize sizes rl srt outmsg g fds p r rd f0 g' : g = (rd, f0) :: g' ->
  set_ops_calls fs maxSize sizes rl srt outmsg g fds p r = obind (set_calls maxSize sizes rl srt outmsg g fds p r) (omap (with_ops fs (r_ns rd))).
Proof. intros ->. reflexivity. Qed.
(** ---- operations that are not defined on some trace ---- *)
Lemma loop_undefined f ns : 0 <= ns -> forall js m j, NoDup js -> In j js -> (forall t, f (get_trace ns m j) <> Done t) -> loop f ns js (Some m) = None.
Proof.
  intros N. assert (NN : forall js, loop f ns js None = None) by (unfold loop; induction js as [|j js IH]; [reflexivity|exact IH]).
  induction js as [|i js IH]; intros m j ND J H; [destruct J|]. inversion ND as [|? ? N1 N2]; subst.
  change (loop f ns (i :: js) (Some m)) with (loop f ns js (match f (get_trace ns m i) with Done t => Some (put_trace ns m i t) | _ => None end)).
  destruct (f (get_trace ns m i)) as [t| |] eqn:T; [|apply NN|apply NN]. destruct J as [J|J]; [subst i; exfalso; exact (H t T)|].
  apply (IH _ j N2 J). rewrite put_other; [exact H|exact N|]. intros Q; subst i; contradiction.
Qed.
Lemma with_op_undefined f src ns rl o b : 0 <= ns -> call_full src ns rl o -> moved o b -> (forall t, f (floats_at (fst (src b)) ns (snd (src b))) <> Done t) -> with_ops [f] ns o = None.
Proof.
  intros N CF (sz & t & trc & prm & skip & j & Q & J & TP) H. subst o. cbn [call_full] in CF. destruct trc as [m|]; [|contradiction]. destruct prm as [q|]; [|contradiction].
  destruct CF as (_ & _ & _ & _ & A5). cbn [with_ops]. unfold ops_block. cbn [map calc kindeqb o_kind o_act negb obind]. change (in_place f ns (tcount t) m) with (loop f ns (zr (tcount t)) (Some m)).
  rewrite (loop_undefined f ns N (zr (tcount t)) m j (zr_nodup _) (proj2 (zr_in _ _) J)); [reflexivity|].
  intros u. specialize (A5 j J). rewrite TP in A5. destruct (src b) as (fl, a) eqn:S. cbn [fst snd] in H. rewrite (get_ext ns m (floats_at fl ns a) j N (floats_length fl ns a N)); [apply H|].
  intros k K. rewrite floats_nth by exact K. f_equal. apply A5. exact K.
Qed.
Lemma omap_none {A B} (f : A -> option B) : forall l x, In x l -> f x = None -> omap f l = None.
Proof.
  induction l as [|y l IH]; intros x X E; [destruct X|]. cbn [omap]. destruct X as [X|X]; [subst y; rewrite E; reflexivity|]. rewrite (IH x X E). destruct (f y); reflexivity.
Qed.

(** ---- tapers and gain control keep the number of samples ---- *)
Lemma for_each_keeps (body : Z -> list F -> outcome (list F)) : (forall j s t, body j s = Done t -> length t = length s) -> forall js s t, for_each body js s = Done t -> length t = length s.
Proof.
  intros H. induction js as [|j js IH]; intros s t E; cbn [for_each] in E; [injection E as <-; reflexivity|]. destruct (body j s) as [u| |] eqn:U; cbn [obnd] in E; try discriminate. rewrite (IH _ _ E). apply (H _ _ _ U).
Qed.
Lemma lset_same {A} : forall (s : list A) i x, length (lset s i x) = length s.
Proof. induction s as [|y s IH]; intros [|i] x; cbn [lset length]; try reflexivity. rewrite IH. reflexivity. Qed.
Lemma zset_keeps {A} (s : list A) i x t : zset s i x = Done t -> length t = length s.
Proof. unfold zset. destruct (_ && _); [|discriminate]. intros E. injection E as <-. apply lset_same. Qed.
Lemma scale_keeps s i x t : scale_at s i x = Done t -> length t = length s.
Proof. unfold scale_at. destruct (zget s i); cbn [obnd]; try discriminate. apply zset_keeps. Qed.
Lemma taper_n_keeps dbg fn : forall fuel s l r t, taper_n fuel dbg fn s l r = Done t -> length t = length s.
Proof.
  induction fuel as [|fuel IH]; intros s l r t E; cbn [taper_n] in E; unfold asserted in E; destruct (dbg && _); try discriminate; destruct s as [|x s]; try discriminate.
  destruct (feqb x f0).
  - set (k := leading_zeros (x :: s)) in *. assert (E' : obnd (taper_n fuel dbg fn (skipn k (x :: s)) (Z.min l (zlen (skipn k (x :: s)))) (Z.min r (zlen (skipn k (x :: s))))) (fun t' => Done (firstn k (x :: s) ++ t')) = Done t).
    { destruct dbg; [destruct (skipn k (x :: s)) eqn:SK; [discriminate|exact E]|exact E]. }
    clear E. destruct (taper_n fuel dbg fn (skipn k (x :: s)) _ _) as [u| |] eqn:U in E'; cbn [obnd] in E'; try discriminate. injection E' as <-. rewrite app_length, (IH _ _ _ _ U), <- app_length, firstn_skipn. reflexivity.
  - unfold taper_loops in E. destruct (for_each _ (zr l) (x :: s)) as [u| |] eqn:U; cbn [obnd] in E; try discriminate.
    rewrite (for_each_keeps _ (fun j s t => scale_keeps s _ _ t) _ _ _ E). apply (for_each_keeps _ (fun j s t => scale_keeps s _ _ t) _ _ _ U).
Qed.
Lemma taper_keeps dbg fn l r : keeps (op_taper dbg fn l r).
Proof. intros s t. apply taper_n_keeps. Qed.
Lemma agc_gains_keeps g s target : forall steps gain t, agc_gains g s target steps gain = Done t -> length t = length gain.
Proof.
  induction steps as [|(j, ((a, w), c)) steps IH]; intros gain t E; cbn [agc_gains] in E; [injection E as <-; reflexivity|].
  destruct (window s a w) as [wn| |]; cbn [obnd] in E; try discriminate. destruct (g wn target c) as [x| |]; cbn [obnd] in E; try discriminate.
  destruct (zset gain j x) as [u| |] eqn:U; cbn [obnd] in E; try discriminate. rewrite (IH _ _ E). apply (zset_keeps _ _ _ _ U).
Qed.
Lemma AGC_keeps dbg g w target : keeps (op_AGC dbg g w target).
Proof.
  intros s t. unfold op_AGC, AGC, asserted. destruct (dbg && _); [discriminate|]. destruct (agc_gains _ _ _ _ _) as [gain| |] eqn:G; cbn [obnd]; try discriminate.
  intros E. injection E as <-. rewrite map_length, combine_length, (agc_gains_keeps _ _ _ _ _ _ G), repeat_length. lia.
Qed.

Section Output.
Context (fs : list trace_op) (maxSize : Z) (rl : rule) (srt : sorter) (outmsg : list Z) (g : list (reader * file)) (fds : nat -> list fdesc) (p : nat) (ns nt : Z) (inc : D) (src : Z -> nat * Z).
Context (M1 : 3600 <= maxSize) (M2 : 2 * (240 + 4 * ns) <= maxSize) (NS : 0 <= ns <= 32767).
Context (G0 : g <> []) (GI : forall x, In x g -> set_input maxSize ns inc x).
Context (PL : placed p nt (map (fun x => r_nt (fst x)) g) fds src).
Context (US : usable rl) (GD : good rl) (LB : exists e, lookup 1 (translate rl) = Some e /\ e_type e = MIndex) (NC : counts rl MCopy <> 0) (PM : 0 <= paramMem rl <= 100000000).
Context (SRT : std_sort srt) (KS : Forall keeps fs).
Let so := source_of g inc src.
Context (DF : forall b, 0 <= b < nt -> exists t, chain fs (floats_at (fst (so b)) ns (snd (so b))) = Done t).
Lemma ops_output_calls sizes r : (r < p)%nat -> exists ws, set_ops_calls fs maxSize sizes rl srt outmsg g fds p r = Some (set_announcements ns inc outmsg ++ ws) /\
  length ws = list_sum (map (fun k => ceil_div (set_biggest p fds k) (Z.to_nat (max_block ns (paramMem rl)))) (seq 0 (length g))) /\
  (forall o, In o ws -> good_write nt ns o /\ call_made so (op_result fs so ns) ns rl o) /\
  (forall k j, (k < length g)%nat -> (j < length (f_ilst (nth k (fds r) no_fd)))%nat -> exists o, In o ws /\ moved o (nth j (f_olst (nth k (fds r) no_fd)) 0)).
Proof.
  intros R. destruct (output_calls maxSize rl srt outmsg g fds p ns nt inc src M1 M2 NS G0 GI PL US GD LB NC PM SRT sizes r R) as (ws & E & L & A & B).
  destruct (ops_list fs so nt ns rl (proj1 NS) KS DF ws A) as (ws' & E' & L' & A' & B').
  assert (HG : exists rd f0 g', g = (rd, f0) :: g') by (clear -G0; destruct g as [|(rd, f0) g']; [contradiction|]; eauto). destruct HG as (rd & f0 & g' & EG).
  assert (RN : r_ns rd = ns) by (apply (si_ns _ _ _ _ (GI (rd, f0) ltac:(rewrite EG; left; reflexivity)))).
  exists ws'. split; [|split; [congruence|split; [exact A'|]]].
  - rewrite (set_ops_cons _ _ _ _ _ _ _ _ _ _ _ _ _ EG), RN, E. cbn [obind]. rewrite omap_app, E'. reflexivity.
  - intros k j K J. destruct (B k j K J) as (o & O & M). apply (B' o); assumption.
Qed.
Lemma ops_life h fi maxSize' sizes' (sizes : nat -> nat -> nat -> list Z) : (0 < p)%nat -> 0 < nt -> fits nt ns -> file_bytes fi -> 3600 <= maxSize' ->
  (forall x, In x h -> (fst x < p)%nat) ->
  (forall r, (r < p)%nat -> set_ops_calls fs maxSize (sizes r) rl srt outmsg g fds p r = Some (rank_ops h r)) ->
  exists f' rd', write_file maxSize p h fi = Some f' /\ fsize f' = 3600 + nt * (240 + 4 * ns) /\
  open_file maxSize' sizes' f' = Some rd' /\ r_ns rd' = ns /\ r_nt rd' = nt /\ r_inc rd' = inc /\ written_file maxSize p h fi f' nt ns /\
  (forall x, In x h -> call_made so (op_result fs so ns) ns rl (snd x)) /\
  (forall b, 0 <= b < nt -> exists r sizes t trc prm skip j, In (r, WTrace sizes t trc prm skip) h /\ 0 <= j < tcount t /\ tpos t j = b).
Proof.
  intros P NT F FB0 M' RK RUN.
  apply (calls_life maxSize rl outmsg g fds p ns nt inc src M1 M2 NS G0 GI PL PM (call_made so (op_result fs so ns) ns rl) (fun r => skipn 3 (rank_ops h r))); try assumption.
  - intros o [O|[O|[O|[]]]]; subst o; exact Logic.I.
  - intros r R. destruct (ops_output_calls (sizes r) r R) as (ws & E & Q). rewrite (RUN r R) in E. injection E as E. rewrite E. split; [reflexivity|exact Q].
Qed.
(** Every position of the output. *)
Lemma ops_traces h fi f' : written_file maxSize p h fi f' nt ns -> (forall x, In x h -> call_made so (op_result fs so ns) ns rl (snd x)) ->
  forall b, (exists r sizes t trc prm skip j, In (r, WTrace sizes t trc prm skip) h /\ 0 <= j < tcount t /\ tpos t j = b) -> 0 <= b < nt ->
  chain fs (floats_at (fst (so b)) ns (snd (so b))) = Done (floats_at f' ns b) /\
  (forall x, 0 <= x < 240 -> untouched rl x -> disk_header f' ns b x = disk_header (fst (so b)) ns (snd (so b)) x).
Proof.
  intros W C b CV Hb. pose proof (history_made maxSize p h fi f' nt ns so (op_result fs so ns) rl W US NC C (fun b => source_bytes_ok maxSize g fds p ns nt inc src G0 GI PL b) b CV) as H.
  destruct (so b) as (f, a) eqn:SB. cbn [fst snd]. destruct H as (HS & _ & HH & _). split; [|exact HH].
  destruct (DF b Hb) as (t & T). rewrite SB in T. cbn [fst snd] in T. rewrite T. f_equal. pose proof (chain_keeps fs KS _ _ T) as L. rewrite floats_length in L by lia.
  apply (nth_ext _ _ f0 f0); [rewrite L, floats_length by lia; reflexivity|]. intros n Hn. rewrite L in Hn. rewrite <- (Nat2Z.id n). rewrite floats_nth by lia.
  destruct (HS (Z.of_nat n) ltac:(lia)) as (t2 & T2 & _ & Q). rewrite SB in T2. cbn [fst snd] in T2. rewrite T in T2. injection T2 as <-. exact Q.
Qed.
End Output.
