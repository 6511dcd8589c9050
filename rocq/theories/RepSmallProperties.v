(** C74: files shorter than one block of 2 MiB, on two or more processes. *)
From Coq Require Import Lia.
From Verif Require Import Base DecompModel DecompSpec DecompProofs DataIOModel DataIOProofs SignalProofs UtilModel UtilSpec RepModel RepProperties StdProperties.
Import ListNotations.
Open Scope Z_scope.

(** The number of blocks wraps around, so process 0 takes more than the file holds. *)
Lemma blockDecomp_short fsz p : 2 <= p <= 4398046511104 -> 0 < fsz < rep_bsz -> exists l, blockDecomp fsz rep_bsz p 0 0 = Some (mkPiece 0 l) /\ fsz < l.
Proof.
  intros P F. assert (BE : rep_bsz = 2097152) by reflexivity. assert (TE : two64 = 18446744073709551616) by reflexivity. unfold blockDecomp. destruct (Z.eqb_spec rep_bsz 0) as [?|_]; [lia|]. replace (0 mod rep_bsz) with 0 by reflexivity. rewrite Z.sub_0_r. rewrite (u64_small rep_bsz) by (unfold in_u64; lia). rewrite Z.add_0_l. rewrite (u64_small fsz) by (unfold in_u64; lia). rewrite (Z.mod_small fsz rep_bsz) by lia.
  assert (W1 : u64 (fsz - rep_bsz) = two64 + (fsz - rep_bsz)). { unfold u64. symmetry. apply (Z.mod_unique _ _ (-1)); lia. } rewrite W1. rewrite (u64_small (two64 + (fsz - rep_bsz) - fsz)) by (unfold in_u64; lia). replace (two64 + (fsz - rep_bsz) - fsz) with (8796093022207 * rep_bsz) by lia. rewrite Z.div_mul by lia. replace (u64 (8796093022207 + 2)) with 8796093022209 by reflexivity.
  rewrite block_decomposition_exact by (unfold in_u64; lia). cbn [global_offset local_size]. rewrite Z.mul_0_r. set (n := 8796093022209 / p + _). rewrite Z.min_l by (pose proof (Z.mod_pos_bound 8796093022209 p); lia). cbn [Z.add].
  assert (N : 2 <= n <= 4398046511106). { unfold n. assert (8796093022209 / p <= 8796093022209 / 2) by (apply Z.div_le_compat_l; lia). replace (8796093022209 / 2) with 4398046511104 in * by reflexivity. assert (2 <= 8796093022209 / p) by (apply Z.div_le_lower_bound; lia). destruct (0 <? 8796093022209 mod p); lia. } clearbody n.
  pose proof (Z.mul_le_mono_nonneg_r 2 n rep_bsz ltac:(lia) ltac:(lia)) as L1. pose proof (Z.mul_le_mono_nonneg_r n 4398046511106 rep_bsz ltac:(lia) ltac:(lia)) as L2.
  rewrite (u64_small (n * rep_bsz)) by (unfold in_u64; lia). destruct (Z.eqb_spec (n * rep_bsz) 0); [lia|]. rewrite Z.sub_diag. replace (u64 (0 * rep_bsz)) with 0 by reflexivity. replace (u64 0) with 0 by reflexivity. cbn [Z.eqb]. rewrite Z.sub_0_r. rewrite (u64_small (n * rep_bsz)) by (unfold in_u64; lia). destruct (Z.eqb_spec (n * rep_bsz) 0); [lia|]. cbn [negb andb]. rewrite Z.add_0_l. rewrite (u64_small (n * rep_bsz)) by (unfold in_u64; lia). destruct (Z.ltb_spec fsz (n * rep_bsz)); [|lia]. rewrite (u64_small (rep_bsz - fsz)) by (unfold in_u64; lia). rewrite u64_small by (unfold in_u64; lia). eexists. split; [reflexivity|]. lia.
Qed.
Lemma origin_lt fsz x : hosz < fsz -> 0 <= x -> origin fsz x < fsz.
Proof. intros F X. unfold origin. destruct (Z.ltb_spec x hosz); [lia|]. pose proof (Z.mod_pos_bound (x - hosz) (fsz - hosz) ltac:(lia)). lia. Qed.
Lemma step_short p fsz : 1 <= p -> fsz < rep_bsz -> fsz <= rep_step p.
Proof. intros P F. unfold rep_step. assert (BE : rep_bsz = 2097152) by reflexivity. lia. Qed.
Theorem C74_naive2_short_refuted : forall p fsz rep, 2 <= p <= 4398046511104 -> hosz < fsz < rep_bsz -> ~ replicates fsz rep p (fun r => makeSEGYCopyNaive false p r fsz rep).
Proof.
  intros p fsz rep P F (W & _). pose proof hosz_pos as HP. destruct (W 0 ltac:(lia)) as (l & E & FA). destruct (blockDecomp_short fsz p P ltac:(lia)) as (n & EN & LN). unfold makeSEGYCopyNaive in E. rewrite chunks_one in E by (pose proof (step_short p fsz); lia).
  destruct (all_chunks_in _ _ _ 0 E (or_introl eq_refl)) as (a & EA & IN). unfold naive_chunk in EA. pose proof (step_short p fsz ltac:(lia) ltac:(lia)). destruct (Z.ltb_spec (0 + rep_step p) fsz); [lia|]. rewrite Z.sub_0_r in EA. unfold naive_dec in EA. rewrite EN in EA. cbn [obind global_offset local_size Z.eqb andb] in EA. destruct (Z.ltb_spec n hosz); [lia|]. injection EA as <-.
  rewrite Forall_forall in FA. destruct (FA (mkCopy 0 0 n) ltac:(apply IN; left; reflexivity)) as (_ & FB). cbn [dst src len] in FB. destruct (FB fsz ltac:(lia)) as (_ & C). pose proof (origin_lt fsz (0 + fsz) ltac:(lia) ltac:(lia)). lia.
Qed.
Print Assumptions C74_naive2_short_refuted.
Theorem C74_standard_short_refuted : forall p fsz rep, 2 <= Z.of_nat p <= 4398046511104 -> hosz < fsz < rep_bsz -> ~ (exists ws, makeSEGYCopy p fsz rep = Some ws /\ replicated fsz rep ws).
Proof.
  intros p fsz rep P F (ws & E & W & _). pose proof hosz_pos as HP. destruct (blockDecomp_short fsz (Z.of_nat p) P ltac:(lia)) as (n & EN & LN). unfold makeSEGYCopy in E. pose proof (step_short (Z.of_nat p) fsz ltac:(lia) ltac:(lia)) as SS. rewrite chunks_one in E by lia.
  destruct (std_chunks_in _ _ _ 0 E (or_introl eq_refl)) as (a & EA & IN). unfold std_chunk in EA. destruct (Z.ltb_spec (0 + rep_step (Z.of_nat p)) fsz); [lia|]. rewrite Z.sub_0_r in EA. cbv zeta in EA. destruct p as [|p]; [lia|]. cbn [seq everywhere] in EA. unfold decs at 1 in EA. replace (Z.of_nat 0) with 0 in EA by reflexivity. rewrite EN in EA. cbn [obind] in EA.
  destruct (everywhere (decs fsz (Z.of_nat (S p)) 0) (seq 1 p)) as [ds|] eqn:ED; [|discriminate EA]. cbn [obind map nth global_offset local_size] in EA. rewrite Z.add_0_l in EA. unfold put at 1 in EA. rewrite positions_length in EA by lia. destruct (Z.ltb_spec n 0); [lia|]. rewrite Z.ltb_irrefl in EA. cbn [orb obind] in EA. rewrite positions_firstn in EA by lia.
  match type of EA with obind (obind ?x _) _ = _ => destruct x as [fs|] eqn:EF; [|discriminate EA] end. cbn [obind] in EA.
  match type of EA with obind ?x _ = _ => destruct x as [ov|] eqn:EO; [|discriminate EA] end. cbn [obind] in EA.
  match type of EA with obind ?x _ = _ => destruct x as [rest|] eqn:ER; [|discriminate EA] end. cbn [obind] in EA. injection EA as <-.
  rewrite Forall_forall in W. specialize (W (0, positions 0 n) ltac:(apply IN; left; reflexivity)). cbn [fst snd] in W.
  destruct (nth_error (positions 0 n) (Z.to_nat fsz)) as [y|] eqn:Y; [|apply nth_error_None in Y; rewrite positions_length' in Y; lia]. destruct (W _ _ Y) as (_ & C). apply positions_nth in Y. pose proof (origin_lt fsz (0 + Z.of_nat (Z.to_nat fsz)) ltac:(lia) ltac:(lia)). lia.
Qed.
Print Assumptions C74_standard_short_refuted.
Example C74_short_demo : ~ (exists ws, makeSEGYCopy 2 100000 3 = Some ws /\ replicated 100000 3 ws).
Proof. apply C74_standard_short_refuted; unfold hosz, rep_bsz; lia. Qed.
