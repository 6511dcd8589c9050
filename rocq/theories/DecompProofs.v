From Verif Require Import Base DecompModel DecompSpec.

(** Name quotient and remainder of [n] by [p > 0] and forget what they are. *)
Ltac qr n p q m E B Q :=
  pose proof (Z.div_mod n p ltac:(lia)) as E;
  pose proof (Z.mod_pos_bound n p ltac:(lia)) as B;
  assert (Q : 0 <= n / p) by (apply Z.div_pos; lia);
  set (q := n / p) in *; set (m := n mod p) in *; clearbody q m.

Lemma u64_small x : in_u64 x -> u64 x = x.
Proof. unfold u64, in_u64. intros; apply Z.mod_small; lia. Qed.

(** What the code computes, free of wrap-around. *)
Lemma block_decomposition_exact n p r :
  in_u64 n -> 0 < p -> 0 <= r < p ->
  block_decomposition n p r =
    Some (mkPiece (n / p * r + Z.min r (n mod p))
                  (n / p + (if r <? n mod p then 1 else 0))).
Proof.
  unfold in_u64; intros Hn Hp Hr. unfold block_decomposition.
  destruct (Z.eqb_spec p 0); [lia|].
  qr n p q m E B Q.
  assert (q * r <= q * (p - 1)) by (apply Z.mul_le_mono_nonneg_l; lia).
  assert (0 <= q * r) by nia.
  assert (q * r + Z.min r m < two64).
  { assert (p * q = q * (p-1) + q) by ring.
    destruct (Z.eq_dec q 0) as [->|]; nia. }
  f_equal. f_equal.
  - rewrite (u64_small (q*r)) by (unfold in_u64; lia).
    apply u64_small. unfold in_u64. lia.
  - apply u64_small. unfold in_u64.
    assert (q <= n) by nia.
    destruct (r <? m) eqn:E2; lia.
Qed.

Lemma piece_bounds n p r :
  in_u64 n -> 0 < p -> 0 <= r < p ->
  exists pc, block_decomposition n p r = Some pc /\
    0 <= global_offset pc /\ 0 <= local_size pc /\
    global_offset pc + local_size pc <= n.
Proof.
  intros Hn Hp Hr. rewrite block_decomposition_exact by assumption.
  eexists; split; [reflexivity|]. cbn [global_offset local_size].
  unfold in_u64 in *.
  qr n p q m E B Q.
  destruct (r <? m) eqn:E2.
  - repeat split; nia.
  - assert (q * (r+1) <= q * p) by nia. repeat split; nia.
Qed.

Definition off_of n p r := n / p * r + Z.min r (n mod p).
Definition sz_of n p r := n / p + (if r <? n mod p then 1 else 0).

Lemma off_0 n p : 0 <= n -> 0 < p -> off_of n p 0 = 0.
Proof. intros Hn Hp. unfold off_of. qr n p q m E B Q. lia. Qed.
Lemma off_step n p r : 0 <= n -> 0 < p -> off_of n p (r+1) = off_of n p r + sz_of n p r.
Proof.
  intros; unfold off_of, sz_of. qr n p q m E B Q.
  destruct (r <? m) eqn:E2; nia.
Qed.
Lemma off_p n p : 0 <= n -> 0 < p -> off_of n p p = n.
Proof.
  intros; unfold off_of. qr n p q m E B Q. nia.
Qed.
Lemma off_mono n p r s : 0 <= n -> 0 < p -> r <= s -> off_of n p r <= off_of n p s.
Proof.
  intros; unfold off_of. qr n p q m E B Q. nia.
Qed.

Lemma off_empty n p r : 0 <= n -> 0 < p -> 0 <= r -> sz_of n p r = 0 -> off_of n p r = n.
Proof.
  intros Hn Hp Hr. unfold sz_of, off_of. qr n p q m E B Q.
  destruct (Z.ltb_spec r m); intros; nia.
Qed.

(** Every index lies in the piece of exactly one rank. *)
Lemma piece_unique n p r s i :
  0 <= n -> 0 < p -> 
  off_of n p r <= i < off_of n p r + sz_of n p r ->
  off_of n p s <= i < off_of n p s + sz_of n p s -> r = s.
Proof.
  intros Hn Hp H1 H2. rewrite <- off_step in H1, H2 by assumption.
  destruct (Z.lt_trichotomy r s) as [L|[E|L]]; [|exact E|].
  - pose proof (off_mono n p (r+1) s Hn Hp ltac:(lia)). lia.
  - pose proof (off_mono n p (s+1) r Hn Hp ltac:(lia)). lia.
Qed.

Lemma piece_exists_nat n p i (k : nat) :
  0 <= n -> 0 < p -> 0 <= i < off_of n p (Z.of_nat k) ->
  exists r, 0 <= r < Z.of_nat k /\ off_of n p r <= i < off_of n p r + sz_of n p r.
Proof.
  intros Hn Hp. induction k as [|k IH]; intros Hi.
  - change (Z.of_nat 0) with 0 in Hi. rewrite off_0 in Hi by assumption. lia.
  - replace (Z.of_nat (S k)) with (Z.of_nat k + 1) in * by lia.
    destruct (Z_lt_ge_dec i (off_of n p (Z.of_nat k))) as [L|G].
    + destruct IH as (r & Hr & Hx); [lia|]. exists r; split; [lia|exact Hx].
    + exists (Z.of_nat k). split; [lia|]. rewrite <- off_step by assumption. lia.
Qed.

(** Specification of the location function: the unique owner. *)
Lemma location_exact n p gi :
  in_u64 n -> 0 < p < two64 -> 0 <= gi < n ->
  exists r, 0 <= r < p /\ off_of n p r <= gi < off_of n p r + sz_of n p r /\
    block_decomposition_location n p gi = Some (mkLoc r (gi - off_of n p r)).
Proof.
  unfold in_u64; intros Hn Hp Hg. unfold block_decomposition_location.
  destruct (Z.eqb_spec p 0); [lia|].
  unfold off_of, sz_of.
  assert (Hp1 : p = 1 -> n mod p = 0) by (intros ->; apply Z.mod_1_r).
  qr n p q m E B Hq.
  assert (Hm : (q + 1) * m <= n) by nia.
  destruct (Z.eq_dec m 0) as [Hm0|Hm0].
  - (* no remainder: the else branch *)
    assert (Hq0 : q <> 0) by nia.
    rewrite Hm0, Z.mul_0_r. change (u64 0) with 0.
    destruct (Z.ltb_spec gi 0); [lia|].
    rewrite Z.sub_0_r. rewrite (u64_small gi) by (unfold in_u64; lia).
    destruct (Z.eqb_spec q 0); [lia|].
    qr gi q r t Eg Bg Hr.
    assert (r < p) by nia.
    rewrite Z.add_0_r, (u64_small r) by (unfold in_u64; lia).
    exists r. split; [lia|]. 
    replace (Z.min r 0) with 0 by lia. destruct (Z.ltb_spec r 0); [lia|].
    split; [nia|]. f_equal. f_equal.
    rewrite (u64_small (q*r)) by (unfold in_u64; nia).
    rewrite (u64_small (gi - q*r)) by (unfold in_u64; nia).
    rewrite Z.sub_0_r. rewrite Z.add_0_r. apply u64_small. unfold in_u64; nia.
  - assert (Hbig : u64 (q + 1) = q + 1).
    { apply u64_small. unfold in_u64. assert (p <> 1) by (intro P1; apply Hp1 in P1; lia).
      assert (2 * q <= n) by nia. unfold two64 in *; lia. }
    rewrite Hbig. rewrite (u64_small ((q+1)*m)) by (unfold in_u64; nia).
    destruct (Z.ltb_spec gi ((q+1)*m)) as [L|G].
    + destruct (Z.eqb_spec (q+1) 0); [lia|].
      qr gi (q+1) r t Eg Bg Hr.
      assert (r < m) by nia.
      exists r. split; [lia|]. replace (Z.min r m) with r by lia.
      destruct (Z.ltb_spec r m); [|lia].
      split; [nia|]. f_equal. f_equal.
      rewrite (u64_small ((q+1)*r)) by (unfold in_u64; nia).
      rewrite u64_small by (unfold in_u64; nia). ring.
    + rewrite (u64_small (gi - (q+1)*m)) by (unfold in_u64; nia).
      destruct (Z.eqb_spec q 0); [nia|].
      assert (Hg2 : gi - (q+1)*m < q * (p - m)) by nia.
      assert (Hg3 : 0 <= gi - (q+1)*m) by lia.
      remember (gi - (q+1)*m) as g eqn:Dg.
      qr g q k t Eg Bg Hk.
      assert (k + m < p) by nia.
      rewrite (u64_small (k+m)) by (unfold in_u64; lia).
      exists (k+m). split; [lia|]. replace (Z.min (k+m) m) with m by lia.
      destruct (Z.ltb_spec (k+m) m); [lia|].
      assert (Eg2 : gi = q * (k + m) + m + t) by nia.
      split; [nia|]. f_equal. f_equal.
      rewrite (u64_small (q*(k+m))) by (unfold in_u64; nia).
      rewrite (u64_small (gi - q*(k+m))) by (unfold in_u64; nia).
      rewrite u64_small by (unfold in_u64; nia). ring.
Qed.

(* ---------- the partition as stated in DecompSpec ---------- *)

(** A decomposition given by increasing boundaries [b 0 = 0, ..., b p = n]. *)
Lemma shares_of_bounds n p f (b : Z -> Z) :
  0 < p -> b 0 = 0 -> b p = n ->
  (forall r, 0 <= r < p -> b r <= b (r+1)) ->
  (forall r, 0 <= r < p -> f r = Some (mkPiece (b r) (b (r+1) - b r))) ->
  shares n p f.
Proof.
  intros Hp H0 Hn Hmono Hf.
  assert (M1 : forall k : nat, forall r, 0 <= r -> r + Z.of_nat k <= p -> b r <= b (r + Z.of_nat k)).
  { induction k as [|k IH]; intros r Hr Hk.
    - replace (r + Z.of_nat 0) with r by lia; lia.
    - replace (r + Z.of_nat (S k)) with (r + Z.of_nat k + 1) by lia.
      etransitivity; [apply IH; lia|]. apply Hmono; lia. }
  assert (M : forall r s, 0 <= r <= s -> s <= p -> b r <= b s).
  { intros r s Hrs Hs. replace s with (r + Z.of_nat (Z.to_nat (s - r))) by lia.
    apply M1; lia. }
  unfold shares. split; [|split; [|split; [|split; [|split]]]].
  - intros r Hr. eexists; split; [apply Hf; exact Hr|]. cbn.
    pose proof (M 0 r ltac:(lia) ltac:(lia)). pose proof (M (r+1) p ltac:(lia) ltac:(lia)).
    specialize (Hmono r Hr). lia.
  - intros i Hi.
    assert (EX : forall k : nat, Z.of_nat k <= p -> i < b (Z.of_nat k) ->
       exists r, 0 <= r < Z.of_nat k /\ b r <= i < b (r+1)).
    { induction k as [|k IH]; intros Hk Hb.
      - change (Z.of_nat 0) with 0 in Hb. lia.
      - destruct (Z_lt_ge_dec i (b (Z.of_nat k))) as [L|G].
        + destruct IH as (r & ? & ?); [lia|exact L|]. exists r; split; [lia|assumption].
        + exists (Z.of_nat k). split; [lia|]. replace (Z.of_nat k + 1) with (Z.of_nat (S k)) by lia. lia. }
    destruct (EX (Z.to_nat p)) as (r & Hr & Hb); [lia| rewrite Z2Nat.id by lia; lia |].
    rewrite Z2Nat.id in Hr by lia.
    exists r. split.
    + split; [exact Hr|]. eexists; split; [apply Hf; exact Hr|]. unfold in_piece; cbn. lia.
    + intros s (Hs & pc & Hpc & Hin). rewrite Hf in Hpc by exact Hs. injection Hpc as <-.
      unfold in_piece in Hin; cbn in Hin.
      destruct (Z.lt_trichotomy r s) as [L|[E|L]]; [|exact E|].
      * pose proof (M (r+1) s ltac:(lia) ltac:(lia)). lia.
      * pose proof (M (s+1) r ltac:(lia) ltac:(lia)). lia.
  - intros r s i j pc pd Hrs Hs Hr Hd Hi Hj.
    rewrite Hf in Hr by lia. rewrite Hf in Hd by lia. injection Hr as <-. injection Hd as <-.
    unfold in_piece in *; cbn in *. pose proof (M (r+1) s ltac:(lia) ltac:(lia)). lia.
  - intros pc E. rewrite Hf in E by lia. injection E as <-. exact H0.
  - intros r pc pd Hr Hr1 E1 E2. rewrite Hf in E1 by lia. rewrite Hf in E2 by lia.
    injection E1 as <-. injection E2 as <-. cbn. lia.
  - intros pc E. rewrite Hf in E by lia. injection E as <-. cbn.
    replace (p - 1 + 1) with p by lia. lia.
Qed.

Lemma block_decomposition_shares n p :
  in_u64 n -> 0 < p -> shares n p (block_decomposition n p).
Proof.
  intros Hn Hp. assert (Hn0 : 0 <= n) by (unfold in_u64 in Hn; lia).
  apply shares_of_bounds with (b := off_of n p).
  - exact Hp.
  - apply off_0; assumption.
  - apply off_p; assumption.
  - intros r Hr. apply off_mono; lia.
  - intros r Hr. rewrite block_decomposition_exact by assumption.
    rewrite off_step by assumption. unfold off_of, sz_of. f_equal. f_equal. lia.
Qed.

Lemma block_decomposition_balanced n p r s pr ps :
  in_u64 n -> 0 < p -> 0 <= r <= s -> s < p ->
  block_decomposition n p r = Some pr -> block_decomposition n p s = Some ps ->
  local_size ps <= local_size pr <= local_size ps + 1.
Proof.
  intros Hn Hp Hrs Hs Er Es. rewrite block_decomposition_exact in Er, Es by lia || assumption.
  injection Er as <-. injection Es as <-. cbn.
  destruct (Z.ltb_spec r (n mod p)); destruct (Z.ltb_spec s (n mod p)); lia.
Qed.

Lemma location_inverse n p gi :
  in_u64 n -> 0 < p < two64 -> 0 <= gi < n ->
  exists r li pc,
    block_decomposition_location n p gi = Some (mkLoc r li) /\
    0 <= r < p /\ block_decomposition n p r = Some pc /\
    0 <= li < local_size pc /\ global_offset pc + li = gi.
Proof.
  intros Hn Hp Hg. destruct (location_exact n p gi Hn Hp Hg) as (r & Hr & Hin & E).
  exists r, (gi - off_of n p r). eexists. split; [exact E|]. split; [exact Hr|].
  split; [apply block_decomposition_exact; try assumption; lia|].
  unfold off_of, sz_of in *. cbn. lia.
Qed.

Lemma location_of_piece n p r li pc :
  in_u64 n -> 0 < p < two64 -> 0 <= r < p ->
  block_decomposition n p r = Some pc -> 0 <= li < local_size pc ->
  block_decomposition_location n p (global_offset pc + li) = Some (mkLoc r li).
Proof.
  intros Hn Hp Hr E Hli. assert (Hn0 : 0 <= n) by (unfold in_u64 in Hn; lia).
  rewrite block_decomposition_exact in E by (assumption || lia). injection E as <-.
  cbn in *. fold (off_of n p r) in *. fold (sz_of n p r) in *.
  assert (B : off_of n p r + sz_of n p r <= n).
  { rewrite <- off_step by lia. rewrite <- (off_p n p) at 2 by lia. apply off_mono; lia. }
  assert (O : 0 <= off_of n p r).
  { rewrite <- (off_0 n p) by lia. apply off_mono; lia. }
  destruct (location_exact n p (off_of n p r + li) Hn Hp ltac:(lia)) as (r' & Hr' & Hin & E).
  assert (r' = r) by (eapply (piece_unique n p r' r (off_of n p r + li)); try lia). subst r'.
  rewrite E. f_equal. f_equal. lia.
Qed.

(* ---------- blockDecomp ---------- *)

(** Byte position (relative to the start) of block boundary [j]. *)
Definition bnd (sz bsz rstart j : Z) : Z :=
  if j =? 0 then 0 else Z.min sz (j * bsz - (bsz - rstart)).

Lemma blockDecomp_exact sz bsz p r off :
  0 < bsz -> 0 <= off -> 0 < sz -> off + sz < two64 -> sz + 2 * bsz < two64 ->
  0 < p -> 0 <= r < p ->
  (bsz - off mod bsz) + (off + sz) mod bsz <= sz ->
  let rstart := bsz - off mod bsz in
  let k := (sz - rstart - (off + sz) mod bsz) / bsz + 2 in
  blockDecomp sz bsz p r off =
    Some (mkPiece (bnd sz bsz rstart (off_of k p r))
                  (bnd sz bsz rstart (off_of k p (r+1)) - bnd sz bsz rstart (off_of k p r))).
Proof.
  intros Hb Ho Hsz H64 H64b Hp Hr Hguard rstart k.
  assert (Hmod : exists t, 0 <= t /\ sz - rstart - (off + sz) mod bsz = t * bsz).
  { unfold rstart. exists ((sz - (bsz - off mod bsz) - (off+sz) mod bsz) / bsz).
    split. { apply Z.div_pos; lia. }
    pose proof (Z.div_mod off bsz ltac:(lia)) as E1.
    pose proof (Z.div_mod (off+sz) bsz ltac:(lia)) as E2.
    replace (sz - (bsz - off mod bsz) - (off + sz) mod bsz)
      with (((off+sz)/bsz - off/bsz - 1) * bsz) by lia.
    rewrite Z.div_mul by lia. reflexivity. }
  destruct Hmod as (t & Ht & Et).
  assert (Hk : k = t + 2). { unfold k. rewrite Et, Z.div_mul by lia. reflexivity. }
  pose proof (Z.mod_pos_bound off bsz Hb) as Bo.
  pose proof (Z.mod_pos_bound (off+sz) bsz Hb) as Be.
  unfold blockDecomp. destruct (Z.eqb_spec bsz 0); [lia|].
  rewrite (u64_small (off+sz)) by (unfold in_u64; lia).
  set (rend := (off+sz) mod bsz) in *. fold rstart.
  assert (Hrs : 1 <= rstart <= bsz) by (unfold rstart; lia).
  rewrite (u64_small rstart) by (unfold in_u64; lia).
  rewrite (u64_small (sz - rstart)) by (unfold in_u64; lia).
  rewrite (u64_small (sz - rstart - rend)) by (unfold in_u64; lia).
  rewrite Et, Z.div_mul by lia.
  rewrite <- Hk. clearbody k rstart rend. 
  assert (Hkb : k * bsz = sz - rstart - rend + 2 * bsz) by (subst k; lia).
  assert (Hk2 : 2 <= k) by lia.
  assert (Hku : in_u64 k) by (unfold in_u64; nia).
  rewrite (u64_small k Hku).
  rewrite block_decomposition_exact by assumption.
  fold (off_of k p r). fold (sz_of k p r).
  pose proof (off_step k p r ltac:(lia) Hp) as Est.
  assert (O0 : 0 <= off_of k p r). { rewrite <- (off_0 k p) by lia. apply off_mono; lia. }
  assert (O1 : off_of k p (r+1) <= k). { rewrite <- (off_p k p) at 2 by lia. apply off_mono; lia. }
  assert (O2 : off_of k p r <= off_of k p (r+1)) by (apply off_mono; lia).
  assert (Or0 : r = 0 -> off_of k p r = 0) by (intros ->; apply off_0; lia).
  assert (Or1 : r <> 0 -> sz_of k p r <> 0 -> off_of k p r <> 0).
  { intros Hr0 Hs. assert (off_of k p 1 <= off_of k p r) by (apply off_mono; lia).
    assert (sz_of k p r <= off_of k p 1).
    { change 1 with (0+1). rewrite off_step, off_0 by lia. unfold sz_of.
      destruct (Z.ltb_spec r (k mod p)); destruct (Z.ltb_spec 0 (k mod p)); lia. }
    assert (0 <= sz_of k p r) by lia. lia. }
  assert (Oe : sz_of k p r = 0 -> off_of k p r = k) by (apply off_empty; lia).
  set (o := off_of k p r) in *. set (o' := off_of k p (r+1)) in *. set (s := sz_of k p r) in *.
  clearbody o o' s. cbn [global_offset local_size].
  assert (Hb0 : 0 <= bsz) by lia.
  assert (Hss : 0 <= s <= k) by lia.
  pose proof (Z.mul_le_mono_nonneg_r o k bsz Hb0 ltac:(lia)) as Ho2.
  pose proof (Z.mul_le_mono_nonneg_r s k bsz Hb0 ltac:(lia)) as Hs2.
  pose proof (Z.mul_le_mono_nonneg_r 0 o bsz Hb0 O0) as Ho3.
  pose proof (Z.mul_le_mono_nonneg_r 0 s bsz Hb0 ltac:(lia)) as Hs3.
  rewrite (u64_small (o * bsz)) by (unfold in_u64; lia).
  rewrite (u64_small (s * bsz)) by (unfold in_u64; lia).
  assert (Hlast : forall j, 1 <= j <= k - 1 -> bnd sz bsz rstart j = j * bsz - (bsz - rstart)
                  /\ j * bsz - (bsz - rstart) <= sz).
  { intros j Hj. pose proof (Z.mul_le_mono_nonneg_r j (k-1) bsz Hb0 ltac:(lia)).
    unfold bnd. destruct (Z.eqb_spec j 0); lia. }
  assert (HkE : bnd sz bsz rstart k = sz).
  { unfold bnd. destruct (Z.eqb_spec k 0); lia. }
  destruct (Z.eqb_spec (s * bsz) 0) as [Hz|Hz].
  { apply Z.mul_eq_0 in Hz. assert (s = 0) by lia. subst s. replace o' with o by lia.
    (* an empty piece comes after all the blocks *)
    assert (o = k) by (apply Oe; reflexivity).
    subst o. rewrite HkE. f_equal. f_equal. lia. }
  assert (Hs0 : 0 < s). { assert (s <> 0) by (intros ->; apply Hz; reflexivity). lia. }
  rewrite (u64_small (bsz - rstart)) by (unfold in_u64; lia).
  rewrite (u64_small (bsz - rend)) by (unfold in_u64; lia).
  (* position of the boundaries, before the last one is clipped *)
  assert (Hraw : forall j, 1 <= j <= k -> 1 <= j * bsz - (bsz - rstart) /\
                   (j = k -> j * bsz - (bsz - rstart) = sz + (bsz - rend))).
  { intros j Hj. pose proof (Z.mul_le_mono_nonneg_r 1 j bsz Hb0 ltac:(lia)). split; [lia|]. intros ->. lia. }
  destruct (Z.eqb_spec r 0) as [Hr0|Hr0].
  - assert (o = 0) by (apply Or0; exact Hr0). subst o.
    assert (Ho's : o' = s) by lia. rewrite Ho's in *. clear Est Ho's. cbn [Z.mul].
    destruct (Hraw s ltac:(lia)) as (R1 & R2).
    rewrite (u64_small (s * bsz - (bsz - rstart))) by (unfold in_u64; lia).
    set (l := s * bsz - (bsz - rstart)) in *.
    destruct (Z.eqb_spec l 0); [lia|]. cbn [negb andb].
    rewrite Z.add_0_l.
    assert (Hl64 : l < two64) by lia.
    rewrite (u64_small l) by (unfold in_u64; lia).
    change (bnd sz bsz rstart 0) with 0. f_equal.
    destruct (Z.ltb_spec sz l) as [L|G].
    + assert (s = k).
      { destruct (Z.eq_dec s k); [assumption|]. destruct (Hlast s ltac:(lia)). lia. }
      subst s. rewrite HkE. rewrite R2 by reflexivity.
      rewrite u64_small by (unfold in_u64; lia). f_equal. lia.
    + assert (s <> k). { intros ->. rewrite R2 in G by reflexivity. lia. }
      destruct (Hlast s ltac:(lia)) as (E1 & _). rewrite E1. f_equal. lia.
  - assert (Ho0 : o <> 0) by (apply Or1; lia).
    assert (o < k) by lia.
    destruct (Hraw o ltac:(lia)) as (R1 & _).
    destruct (Hraw o' ltac:(lia)) as (R1' & R2').
    rewrite (u64_small (o * bsz - (bsz - rstart))) by (unfold in_u64; lia).
    destruct (Z.eqb_spec (s * bsz) 0); [lia|]. cbn [negb andb].
    replace (o * bsz - (bsz - rstart) + s * bsz) with (o' * bsz - (bsz - rstart)) by (rewrite Est; ring).
    pose proof (Z.mul_le_mono_nonneg_r o' k bsz Hb0 ltac:(lia)).
    assert (Eob : o' * bsz = o * bsz + s * bsz) by (rewrite Est; ring).
    rewrite (u64_small (o' * bsz - (bsz - rstart))) by (unfold in_u64; lia).
    destruct (Hlast o ltac:(lia)) as (E1 & E2). rewrite E1. f_equal.
    destruct (Z.ltb_spec sz (o' * bsz - (bsz - rstart))) as [L|G].
    + assert (Hok : o' = k).
      { destruct (Z.eq_dec o' k); [assumption|]. destruct (Hlast o' ltac:(lia)). lia. }
      specialize (R2' Hok). rewrite Hok. rewrite HkE. f_equal.
      rewrite u64_small; [lia|]. unfold in_u64. lia.
    + assert (o' <> k). { intros Hok. rewrite (R2' Hok) in G. lia. }
      destruct (Hlast o' ltac:(lia)) as (E1' & _). rewrite E1'. f_equal. lia.
Qed.

Lemma bnd_mono sz bsz rstart i j :
  0 < bsz -> 0 < sz -> 1 <= rstart <= bsz -> 0 <= i <= j -> bnd sz bsz rstart i <= bnd sz bsz rstart j.
Proof.
  intros. unfold bnd. destruct (Z.eqb_spec i 0); destruct (Z.eqb_spec j 0); try lia; nia.
Qed.

Lemma blockDecomp_shares sz bsz p off :
  0 < bsz -> 0 <= off -> 0 < sz -> off + sz < two64 -> sz + 2 * bsz < two64 -> 0 < p ->
  (bsz - off mod bsz) + (off + sz) mod bsz <= sz ->
  shares sz p (fun r => blockDecomp sz bsz p r off) /\
  (forall r pc, 0 <= r < p -> blockDecomp sz bsz p r off = Some pc ->
     global_offset pc = 0 \/ global_offset pc = sz \/ (off + global_offset pc) mod bsz = 0).
Proof.
  intros Hb Ho Hsz H64 H64b Hp Hguard.
  pose proof (fun r Hr => blockDecomp_exact sz bsz p r off Hb Ho Hsz H64 H64b Hp Hr Hguard) as EX.
  cbn zeta in EX.
  set (rstart := bsz - off mod bsz) in *.
  set (k := (sz - rstart - (off + sz) mod bsz) / bsz + 2) in *.
  pose proof (Z.mod_pos_bound off bsz Hb) as Bo.
  pose proof (Z.mod_pos_bound (off+sz) bsz Hb) as Be.
  assert (Hrs : 1 <= rstart <= bsz) by (unfold rstart; lia).
  assert (Hdiv : 0 <= (sz - rstart - (off + sz) mod bsz) / bsz) by (apply Z.div_pos; lia).
  assert (Hk : 2 <= k) by (unfold k; lia).
  split.
  - apply shares_of_bounds with (b := fun r => bnd sz bsz rstart (off_of k p r)).
    + exact Hp.
    + rewrite off_0 by lia. reflexivity.
    + rewrite off_p by lia. unfold bnd. destruct (Z.eqb_spec k 0); [lia|].
      pose proof (Z.div_mod (sz - rstart - (off + sz) mod bsz) bsz ltac:(lia)) as E.
      pose proof (Z.mod_pos_bound (sz - rstart - (off + sz) mod bsz) bsz Hb) as B.
      pose proof (Z.div_mod off bsz ltac:(lia)) as E1.
      pose proof (Z.div_mod (off+sz) bsz ltac:(lia)) as E2.
      assert (Ez : (sz - rstart - (off + sz) mod bsz) mod bsz = 0).
      { replace (sz - rstart - (off + sz) mod bsz)
          with (((off+sz)/bsz - off/bsz - 1) * bsz) by (unfold rstart; lia).
        apply Z.mod_mul; lia. }
      assert (k * bsz = sz - rstart - (off+sz) mod bsz + 2 * bsz) by (unfold k; nia).
      lia.
    + intros r Hr. apply bnd_mono; try lia. split.
      * rewrite <- (off_0 k p) by lia. apply off_mono; lia.
      * apply off_mono; lia.
    + exact EX.
  - intros r pc Hr E. rewrite EX in E by exact Hr. injection E as <-. cbn.
    unfold bnd. destruct (Z.eqb_spec (off_of k p r) 0); [left; reflexivity|].
    destruct (Z.le_gt_cases sz (off_of k p r * bsz - (bsz - rstart))) as [L|G].
    + right; left. lia.
    + right; right. rewrite Z.min_r by lia.
      pose proof (Z.div_mod off bsz ltac:(lia)) as E1.
      replace (off + (off_of k p r * bsz - (bsz - rstart)))
        with ((off/bsz + off_of k p r) * bsz) by (unfold rstart; nia).
      apply Z.mod_mul; lia.
Qed.

(* ---------- lobdecompose ---------- *)
Lemma zsum_app l1 l2 : zsum (l1 ++ l2) = zsum l1 + zsum l2.
Proof. induction l1 as [|a l IH]; cbn [app zsum fold_right]; [reflexivity|]. fold (zsum (l++l2)). fold (zsum l). lia. Qed.
Lemma zsum_nonneg l : Forall (fun x => 0 <= x) l -> 0 <= zsum l.
Proof. induction 1 as [|x l H ? IH]; cbn; [lia|]. fold (zsum l). lia. Qed.
Lemma zsum_firstn_S l k : (k < length l)%nat -> zsum (firstn (S k) l) = zsum (firstn k l) + nth k l 0.
Proof.
  revert k; induction l as [|a l IH]; intros k Hk; [cbn in Hk; lia|].
  destruct k as [|k]; [cbn; lia|]. cbn [length] in Hk.
  change (firstn (S (S k)) (a :: l)) with (a :: firstn (S k) l).
  change (firstn (S k) (a :: l)) with (a :: firstn k l).
  cbn [zsum fold_right nth]. fold (zsum (firstn (S k) l)) (zsum (firstn k l)).
  rewrite IH by lia. lia.
Qed.

Lemma lround_div_nonneg a b : 0 <= a -> 0 < b -> 0 <= lround_div a b.
Proof. intros. unfold lround_div. apply Z.div_pos; lia. Qed.

Lemma lob_shares sz (p : nat) :
  (0 < p)%nat -> 0 <= sz < two32 -> sz * Z.of_nat p < two64 ->
  zsum (map (fun r => lob_raw sz (Z.of_nat p) (Z.of_nat r)) (seq 0 p)) <= sz + lob_raw sz (Z.of_nat p) 0 ->
  shares sz (Z.of_nat p) (fun r => Some (mkPiece (lob_offset sz p (Z.to_nat r)) (nth (Z.to_nat r) (lob_sizes sz p) 0))).
Proof.
  intros Hp Hsz H64 Hguard.
  assert (Hraw : forall r, (0 <= r < Z.of_nat p) -> 0 <= lob_raw sz (Z.of_nat p) r).
  { intros r Hr. unfold lob_raw. apply lround_div_nonneg.
    - unfold u64. apply Z.mod_pos_bound. reflexivity.
    - unfold lob_total. apply Z.div_str_pos. nia. }
  set (raw := map (fun r => lob_raw sz (Z.of_nat p) (Z.of_nat r)) (seq 0 p)) in *.
  assert (Hlen : length raw = p) by (unfold raw; rewrite map_length, seq_length; reflexivity).
  assert (Hrawpos : Forall (fun x => 0 <= x) raw).
  { unfold raw. apply Forall_map, Forall_forall. intros r Hr. apply in_seq in Hr. apply Hraw. lia. }
  assert (Hhd : exists rest, raw = lob_raw sz (Z.of_nat p) 0 :: rest).
  { unfold raw. destruct p; [lia|]. cbn. eexists; reflexivity. }
  destruct Hhd as (rest & Hrest).
  set (l0 := lob_raw sz (Z.of_nat p) 0) in *.
  assert (Hl0 : 0 <= l0) by (apply Hraw; lia).
  assert (Hrestpos : Forall (fun x => 0 <= x) rest) by (rewrite Hrest in Hrawpos; inversion Hrawpos; assumption).
  pose proof (zsum_nonneg _ Hrestpos) as Hrs0.
  assert (Hsum : zsum raw = l0 + zsum rest) by (rewrite Hrest; reflexivity).
  assert (Hsizes : lob_sizes sz p = (sz - zsum rest) :: rest).
  { unfold lob_sizes. fold raw. rewrite Hrest. rewrite <- Hrest. f_equal.
    unfold u64. rewrite Hsum. rewrite Zminus_mod_idemp_r, Zplus_mod_idemp_r.
    replace (l0 + (sz - (l0 + zsum rest))) with (sz - zsum rest) by lia.
    apply Z.mod_small. unfold two64, two32 in *. lia. }
  assert (Hspos : Forall (fun x => 0 <= x) (lob_sizes sz p)).
  { rewrite Hsizes. constructor; [lia|assumption]. }
  assert (Hslen : length (lob_sizes sz p) = p).
  { rewrite Hsizes. rewrite Hrest in Hlen. exact Hlen. }
  assert (Htot : zsum (lob_sizes sz p) = sz) by (rewrite Hsizes; cbn; fold (zsum rest); lia).
  set (L := lob_sizes sz p) in *.
  assert (Hb : forall k : nat, 0 <= zsum (firstn k L) <= sz).
  { intros k. pose proof (firstn_skipn k L) as E.
    assert (zsum (firstn k L) + zsum (skipn k L) = sz) by (rewrite <- zsum_app, E; exact Htot).
    assert (0 <= zsum (skipn k L)). { apply zsum_nonneg. rewrite <- E in Hspos. apply Forall_app in Hspos. tauto. }
    assert (0 <= zsum (firstn k L)). { apply zsum_nonneg. rewrite <- E in Hspos. apply Forall_app in Hspos. tauto. }
    lia. }
  apply shares_of_bounds with (b := fun r => zsum (firstn (Z.to_nat r) L)).
  - lia.
  - reflexivity.
  - rewrite Nat2Z.id. rewrite firstn_all2 by lia. exact Htot.
  - intros r Hr. replace (Z.to_nat (r+1)) with (S (Z.to_nat r)) by lia.
    rewrite zsum_firstn_S by lia.
    assert (0 <= nth (Z.to_nat r) L 0). { rewrite Forall_forall in Hspos. apply Hspos. apply nth_In. lia. }
    lia.
  - intros r Hr. f_equal. replace (Z.to_nat (r+1)) with (S (Z.to_nat r)) by lia.
    rewrite zsum_firstn_S by lia. f_equal.
    + unfold lob_offset, u32. apply Z.mod_small. fold L. specialize (Hb (Z.to_nat r)). lia.
    + lia.
Qed.
