From Verif Require Import Base DecompModel DecompSpec DecompProofs GatherModel.

Lemma keqb_spec a b : reflect (a = b) (keqb a b).
Proof. destruct a as (a1, a2), b as (b1, b2). unfold keqb. cbn [fst snd]. destruct (Z.eqb_spec a1 b1), (Z.eqb_spec a2 b2); constructor; congruence. Qed.
Definition expand (l : list info) : list key := flat_map (fun i => repeat (snd i) (fst i)) l.
Lemma expand_app a b : expand (a ++ b) = expand a ++ expand b. Proof. apply flat_map_app. Qed.
Fixpoint differ (l : list info) : Prop := match l with a :: ((b :: _) as r) => snd a <> snd b /\ differ r | _ => True end.
Definition head_not (k : key) (l : list info) : Prop := match l with [] => True | a :: _ => snd a <> k end.
Lemma differ_cons a l : differ (a :: l) <-> head_not (snd a) l /\ differ l.
Proof. destruct l as [|b l]; cbn; [tauto|]. split; intros (H & H'); (split; [congruence|exact H']). Qed.
Lemma differ_app a x l : differ (a ++ [x]) -> head_not (snd x) l -> differ l -> differ (a ++ x :: l).
Proof.
  induction a as [|y a IH]; intros H1 H2 H3; [apply differ_cons; auto|]. cbn [app] in *. apply differ_cons in H1. destruct H1 as (A & B). apply differ_cons. split; [|auto].
  destruct a as [|z a]; cbn in *; exact A.
Qed.
Definition pos_all (l : list info) : Prop := Forall (fun i => (0 < fst i)%nat) l.

Lemma runs_shape : forall l cur n, (0 < n)%nat -> runs cur n l <> [] /\ expand (runs cur n l) = repeat cur n ++ l /\ differ (runs cur n l) /\ pos_all (runs cur n l) /\ snd (front (runs cur n l)) = cur.
Proof.
  induction l as [|k l IH]; intros cur n N.
  - cbn. rewrite !app_nil_r. split; [discriminate|]. split; [reflexivity|]. split; [exact I|]. split; [constructor; [exact N|constructor]|reflexivity].
  - cbn [runs]. destruct (keqb_spec k cur) as [->|D].
    + destruct (IH cur (S n) ltac:(lia)) as (A & B & C & E & F). split; [exact A|]. split; [|auto]. rewrite B. cbn [repeat app]. change (cur :: repeat cur n ++ l) with ((cur :: repeat cur n) ++ l). rewrite repeat_cons, <- app_assoc. reflexivity.
    + destruct (IH k 1%nat ltac:(lia)) as (A & B & C & E & F). split; [discriminate|]. split; [cbn [expand flat_map fst snd]; unfold expand in B; rewrite B; reflexivity|]. split; [apply differ_cons; split; [|exact C]|].
      * cbn [snd]. unfold front in F. destruct (runs k 1 l); [exact I|]. cbn in *. congruence.
      * split; [constructor; [exact N|exact E]|reflexivity].
Qed.
(** A rank's runs: the last one split off. *)
Lemma lline_shape l ll : lline l = Some ll -> expand ll = l /\ differ ll /\ pos_all ll /\ exists i, ll = i ++ [back ll] /\ removelast ll = i.
Proof.
  destruct l as [|k l]; [discriminate|]. cbn. intros H. injection H as <-. destruct (runs_shape l k 1 ltac:(lia)) as (A & B & C & E & _). split; [exact B|]. split; [exact C|]. split; [exact E|].
  exists (removelast (runs k 1 l)). split; [|reflexivity]. unfold back. apply app_removelast_last, A.
Qed.
Fixpoint lead (k : key) (l : list key) : nat := match l with [] => O | x :: r => if keqb k x then S (lead k r) else O end.
Lemma lead_split k l : l = repeat k (lead k l) ++ skipn (lead k l) l.
Proof. induction l as [|x l IH]; [reflexivity|]. cbn [lead]. destruct (keqb_spec k x) as [<-|]; [cbn; f_equal; exact IH|reflexivity]. Qed.
Lemma lead_repeat k n l : lead k (repeat k n ++ l) = (n + lead k l)%nat.
Proof. induction n as [|n IH]; [reflexivity|]. cbn. destruct (keqb_spec k k); [rewrite IH; reflexivity|congruence]. Qed.
Lemma lead_not k x l : x <> k -> lead k (x :: l) = O.
Proof. intros H. cbn. destruct (keqb_spec k x); [congruence|reflexivity]. Qed.
Lemma skip_repeat {A} (k : A) n l : skipn n (repeat k n ++ l) = l.
Proof. induction n; [reflexivity|exact IHn]. Qed.

Lemma skip_repeat_more {A} (k : A) n a l : skipn (n + a) (repeat k n ++ l) = skipn a l.
Proof. induction n; [reflexivity|exact IHn]. Qed.

(** Traces with one key follow each other. *)
Definition contiguous (l : list key) : Prop := forall a k b c m, l = a ++ k :: b ++ k :: c -> In m b -> m = k.
Lemma contiguous_app_r a b : contiguous (a ++ b) -> contiguous b.
Proof. intros H x k y c m E I. apply (H (a ++ x) k y c m); [|exact I]. rewrite E, <- app_assoc. reflexivity. Qed.

Section Ranks.
  Variables (beyond : key) (p : nat) (dat : nat -> list key).
  Hypothesis NE : forall r, (r < p)%nat -> dat r <> [].
  Let ll r := match lline (dat r) with Some l => l | None => [] end.
  Lemma ll_shape r : (r < p)%nat -> expand (ll r) = dat r /\ differ (ll r) /\ pos_all (ll r) /\ exists i, ll r = i ++ [back (ll r)] /\ removelast (ll r) = i.
  Proof using NE.
    intros R. unfold ll. destruct (lline (dat r)) as [l|] eqn:E; [apply (lline_shape _ _ E)|]. exfalso. specialize (NE r R). destruct (dat r); [congruence|discriminate].
  Qed.
  Definition suffix (r : nat) : list key := flat_map dat (seq r (p - r)).
  Lemma suffix_step r : (r < p)%nat -> suffix r = dat r ++ suffix (S r).
  Proof using. clear NE. intros R. unfold suffix. replace (p - r)%nat with (S (p - S r)) by lia. reflexivity. Qed.
  Lemma suffix_end r : (p <= r)%nat -> suffix r = [].
  Proof using. clear NE. intros R. unfold suffix. replace (p - r)%nat with 0%nat by lia. reflexivity. Qed.
  (** A rank's first run is the leading part of its traces. *)
  Lemma front_shape r : (r < p)%nat -> exists n k rest, front (ll r) = (n, k) /\ (0 < n)%nat /\ dat r = repeat k n ++ rest /\ (rest = [] /\ ll r = [(n, k)] \/ exists x t, rest = x :: t /\ x <> k /\ (1 < length (ll r))%nat).
  Proof using NE.
    intros R. destruct (ll_shape r R) as (A & B & C & i & D & _). unfold front. destruct (ll r) as [|(n, k) l] eqn:E; [destruct i; discriminate|]. cbn [hd]. inversion C as [|? ? C1 C2]; subst. cbn [fst] in C1.
    exists n, k, (expand l). split; [reflexivity|]. split; [exact C1|]. split; [symmetry; exact A|]. destruct l as [|(n2, k2) l]; [left; split; reflexivity|right]. cbn in B. inversion C2 as [|? ? C3 _]; subst. cbn [fst] in C3.
    destruct n2 as [|n2]; [lia|]. exists k2, (repeat k2 n2 ++ expand l). split; [reflexivity|]. split; [destruct B; congruence|cbn [length]; lia].
  Qed.
  Lemma grow_lead k : forall m r, (p - r = m)%nat -> contiguous (k :: suffix r) -> grow k (map (fun q => front (ll q)) (seq r (p - r))) = lead k (suffix r).
  Proof using NE.
    induction m as [|m IH]; intros r M CT.
    - rewrite suffix_end by lia. replace (p - r)%nat with 0%nat by lia. reflexivity.
    - assert (R : (r < p)%nat) by lia. rewrite (suffix_step r R) in *. replace (p - r)%nat with (S (p - S r)) by lia. cbn [seq map grow].
      destruct (front_shape r R) as (n & k' & rest & F & N & D & C). rewrite F. destruct (keqb_spec k k') as [<-|NK].
      + rewrite D, <- app_assoc, lead_repeat. f_equal. destruct C as [(-> & _)|(x & t & -> & X & _)].
        * cbn [app]. apply IH; [lia|]. rewrite D, app_nil_r in CT. replace n with (S (n - 1)) in CT by lia. cbn [repeat] in CT. apply (contiguous_app_r (repeat k n)). replace (repeat k n ++ k :: suffix (S r)) with (k :: repeat k n ++ suffix (S r)); [replace n with (S (n - 1)) by lia; exact CT|].
          rewrite app_comm_cons, (repeat_cons n k), <- app_assoc. reflexivity.
        * cbn [app]. rewrite lead_not by exact X. destruct (Nat.lt_ge_cases (S r) p) as [R2|R2]; [|replace (p - S r)%nat with 0%nat by lia; reflexivity].
          replace (p - S r)%nat with (S (p - S (S r))) by lia. cbn [seq map grow]. destruct (front_shape (S r) R2) as (n2 & k2 & rest2 & F2 & N2 & D2 & _). rewrite F2. destruct (keqb_spec k k2) as [<-|]; [|reflexivity].
          exfalso. apply X. rewrite (suffix_step (S r) R2), D2, D in CT. destruct n2 as [|n2]; [lia|].
          apply (CT [] k (repeat k n ++ x :: t) (repeat k n2 ++ rest2 ++ suffix (S (S r))) x); [|apply in_or_app; right; left; reflexivity]. cbn [app repeat]. rewrite <- !app_assoc. cbn [app]. reflexivity.
      + rewrite D. destruct n as [|n]; [lia|]. cbn [repeat app]. symmetry. apply lead_not. congruence.
  Qed.
  (** What ranks r, r+1, ... put into the vector. *)
  Let out r := flat_map (rank_gathers beyond p ll) (seq r (p - r)).
  Lemma out_step r : (r < p)%nat -> out r = rank_gathers beyond p ll r ++ out (S r).
  Proof using. clear NE. intros R. unfold out. replace (p - r)%nat with (S (p - S r)) by lia. reflexivity. Qed.
  (** The claim for a suffix of the ranks. *)
  Definition good (r : nat) (o : list info) : Prop := differ o /\ pos_all o /\
    (starts ll r = 0%nat -> expand o = suffix r /\ (o <> [] -> snd (front o) = snd (front (ll r)))) /\
    (starts ll r = 1%nat -> let k := snd (front (ll r)) in head_not k o /\ expand o = skipn (lead k (suffix r)) (suffix r)).
  Lemma after r k : (r < p)%nat -> snd (back (ll r)) = k -> (S r < p)%nat -> good (S r) (out (S r)) -> head_not k (out (S r)) /\ expand (out (S r)) = skipn (lead k (suffix (S r))) (suffix (S r)).
  Proof using NE.
    intros R K R2 (_ & _ & G0 & G1). destruct (front_shape (S r) R2) as (n & k2 & rest & F & N & D & _).
    assert (ST : starts ll (S r) = if keqb k k2 then 1%nat else 0%nat).
    { unfold starts. cbn [Nat.eqb negb andb]. replace (S r - 1)%nat with r by lia. rewrite K, F. reflexivity. }
    destruct (keqb_spec k k2) as [<-|X].
    - specialize (G1 ST). cbv zeta in G1. rewrite F in G1. exact G1.
    - specialize (G0 ST). destruct G0 as (G0 & H). rewrite F in H. cbn [snd] in H. split.
      + destruct (out (S r)) as [|a o]; [exact I|]. cbn [head_not]. change a with (front (a :: o)). rewrite H by discriminate. congruence.
      + rewrite G0. rewrite (suffix_step _ R2), D. destruct n as [|n]; [lia|]. cbn [repeat app]. rewrite lead_not by congruence. reflexivity.
  Qed.
  Lemma good_all : contiguous (suffix 0) -> forall m r, (p - r = m)%nat -> (r < p)%nat -> good r (out r).
  Proof using NE.
    intros CT m. induction m as [|m IH]; intros r M R; [lia|]. rewrite (out_step r R).
    destruct (ll_shape r R) as (EX & DF & PS & i & SH & RL). set (b := back (ll r)) in *. set (k := snd b).
    (* what follows rank r *)
    assert (AF : differ (out (S r)) /\ pos_all (out (S r)) /\ head_not k (out (S r)) /\ expand (out (S r)) = skipn (lead k (suffix (S r))) (suffix (S r))).
    { destruct (Nat.lt_ge_cases (S r) p) as [R2|R2].
      - pose proof (IH (S r) ltac:(lia) R2) as G. pose proof (after r k R eq_refl R2 G) as (A1 & A2). destruct G as (G1 & G2 & _). auto.
      - unfold out. replace (p - S r)%nat with 0%nat by lia. rewrite (suffix_end (S r) R2). cbn. split; [exact I|]. split; [constructor|auto]. }
    destruct AF as (AD & AP & AH & AE).
    (* the last run with what the following ranks add *)
    assert (CR : contiguous (k :: suffix (S r))).
    { assert (PRE : exists a c, suffix 0 = a ++ k :: c ++ suffix (S r) /\ c = []).
      { assert (P0 : exists a, suffix 0 = a ++ suffix r).
        { clear -R. unfold suffix. exists (flat_map dat (seq 0 r)). rewrite Nat.sub_0_r. replace p with (r + (p - r))%nat at 1 by lia. rewrite seq_app, flat_map_app. reflexivity. }
        destruct P0 as (a & P0). rewrite (suffix_step r R) in P0. rewrite <- EX, SH, expand_app in P0. cbn [expand flat_map] in P0. rewrite app_nil_r in P0. fold k in P0.
        assert (BP : (0 < fst b)%nat). { rewrite SH in PS. apply Forall_app in PS. destruct PS as (_ & PS). inversion PS; assumption. }
        exists (a ++ expand i ++ repeat k (fst b - 1)), []. split; [|reflexivity]. rewrite P0. replace (fst b) with (S (fst b - 1)) at 1 by lia. rewrite <- !app_assoc. do 2 f_equal. cbn [repeat]. rewrite repeat_cons, <- !app_assoc. reflexivity. }
      destruct PRE as (a & c & PRE & ->). rewrite PRE in CT. apply (contiguous_app_r a) in CT. exact CT. }
    assert (LN : (if Nat.ltb (starts ll r) (length (ll r)) then if keqb (if Nat.ltb (r + 1) p then snd (front (ll (r + 1)%nat)) else beyond) (snd (back (ll r))) then add_last (ll r) (grow (snd (back (ll r))) (map (fun q => front (ll q)) (seq (r + 1) (p - (r + 1))))) else ll r else ll r)
      = if Nat.ltb (starts ll r) (length (ll r)) then i ++ [((fst b + lead k (suffix (S r)))%nat, k)] else ll r).
    { destruct (Nat.ltb (starts ll r) (length (ll r))); [|reflexivity]. replace (r + 1)%nat with (S r) by lia. fold b. fold k.
      assert (GL : grow k (map (fun q => front (ll q)) (seq (S r) (p - S r))) = lead k (suffix (S r))) by (apply (grow_lead k (p - S r) (S r)); [reflexivity|exact CR]).
      rewrite GL. unfold add_last. rewrite RL. fold b. fold k. destruct (keqb_spec (if Nat.ltb (S r) p then snd (front (ll (S r))) else beyond) k) as [_|X]; [reflexivity|].
      assert (Z0 : lead k (suffix (S r)) = 0%nat).
      { destruct (Nat.ltb_spec (S r) p) as [R2|R2]; [|rewrite (suffix_end _ R2); reflexivity]. destruct (front_shape (S r) R2) as (n & k2 & rest & F & N & D & _). rewrite F in X. cbn [snd] in X. rewrite (suffix_step _ R2), D. destruct n as [|n]; [lia|]. cbn [repeat app]. apply lead_not, X. }
      rewrite Z0, Nat.add_0_r. rewrite SH. f_equal. f_equal. unfold k. destruct b; reflexivity. }
    unfold rank_gathers. cbv zeta. rewrite LN. clear LN.
    (* the full list of rank r, before the start is cut off *)
    set (big := i ++ ((fst b + lead k (suffix (S r)))%nat, k) :: out (S r)).
    assert (BE : expand big = dat r ++ suffix (S r)).
    { unfold big. rewrite expand_app. cbn [expand flat_map fst snd]. fold (expand (out (S r))). rewrite AE, repeat_app, <- app_assoc. rewrite <- (lead_split k (suffix (S r))). rewrite <- EX at 1. rewrite SH, expand_app. cbn [expand flat_map]. rewrite app_nil_r. fold k. rewrite <- app_assoc. reflexivity. }
    assert (BD : differ big).
    { unfold big. apply differ_app; [|exact AH|exact AD]. rewrite SH in DF. clear -DF. unfold k. induction i as [|y i IHi]; [exact I|]. cbn [app] in *. apply differ_cons in DF. apply differ_cons. destruct DF as (D1 & D2). split; [|apply IHi, D2]. destruct i; exact D1. }
    assert (BP : pos_all big).
    { unfold big, pos_all. rewrite SH in PS. apply Forall_app in PS. destruct PS as (P1 & P2). inversion P2 as [|? ? P3 _]; subst. apply Forall_app. split; [exact P1|]. constructor; [cbn [fst]; lia|exact AP]. }
    assert (FK : snd (front big) = snd (front (ll r))). { unfold big, front. rewrite SH. destruct i; reflexivity. }
    destruct (starts ll r) as [|[|s]] eqn:ST; [| |exfalso; unfold starts in ST; destruct (_ && _) in ST; discriminate].
    - (* a new gather starts with this rank *)
      assert (L : Nat.ltb 0 (length (ll r)) = true) by (rewrite SH, app_length; cbn [length]; apply Nat.ltb_lt; lia). rewrite L. cbn [skipn]. rewrite <- app_assoc. cbn [app]. fold big.
      split; [exact BD|]. split; [exact BP|]. split; [intros _; split; [rewrite (suffix_step r R); exact BE|intros _; exact FK]|intros C; rewrite ST in C; discriminate].
    - destruct (front_shape r R) as (n & k0 & rest & F & N & D & C). destruct C as [(C1 & C2)|(x & t & C1 & C2 & C3)].
      + (* the rank continues the gather of the rank before, and has no other *)
        rewrite C2. change (Nat.ltb 1 (length [(n, k0)])) with false. cbn [skipn app]. assert (K : k = k0) by (unfold k, b; rewrite C2; reflexivity).
        split; [exact AD|]. split; [exact AP|]. split; [intros X; rewrite ST in X; discriminate|]. intros _. cbv zeta. rewrite F. cbn [snd]. rewrite <- K. split; [exact AH|]. rewrite AE, (suffix_step r R), D, C1, app_nil_r, <- K, lead_repeat.
        symmetry. apply skip_repeat_more.
      + (* it continues that gather and starts others *)
        assert (L : Nat.ltb 1 (length (ll r)) = true) by (apply Nat.ltb_lt; exact C3). rewrite L.
        assert (I1 : exists i', i = front (ll r) :: i'). { rewrite SH in C3. rewrite app_length in C3. cbn [length] in C3. destruct i as [|y i']; [cbn in C3; lia|]. exists i'. unfold front. rewrite SH. reflexivity. }
        destruct I1 as (i' & I1). rewrite F in I1. rewrite I1. cbn [app skipn]. rewrite <- app_assoc. cbn [app]. unfold big in *. rewrite I1 in *. cbn [app] in *.
        apply differ_cons in BD. destruct BD as (BH & BD). inversion BP as [|? ? _ BP']; subst.
        split; [exact BD|]. split; [exact BP'|]. split; [intros X; rewrite ST in X; discriminate|]. intros _. cbv zeta. rewrite F. cbn [snd] in *. split; [exact BH|].
        rewrite (suffix_step r R). rewrite <- BE. cbn [expand flat_map fst snd]. fold (expand (i' ++ ((fst b + lead k (suffix (S r)))%nat, k) :: out (S r))).
        assert (LD : lead k0 (repeat k0 n ++ expand (i' ++ ((fst b + lead k (suffix (S r)))%nat, k) :: out (S r))) = n).
        { etransitivity; [apply f_equal; exact BE|]. rewrite D. rewrite <- app_assoc, lead_repeat. cbn [app]. rewrite lead_not by exact C2. lia. }
        rewrite LD. symmetry. apply skip_repeat.
  Qed.
  Theorem gathers_spec : contiguous (flat_map dat (seq 0 p)) -> exists g, gathers beyond p dat = Some g /\ expand g = flat_map dat (seq 0 p) /\ differ g /\ pos_all g.
  Proof using NE.
    intros CT. unfold gathers. assert (E : existsb (fun r => match dat r with [] => true | _ => false end) (seq 0 p) = false).
    { destruct (existsb _ _) eqn:E; [|reflexivity]. apply existsb_exists in E. destruct E as (r & R & E). apply in_seq in R. specialize (NE r ltac:(lia)). destruct (dat r); congruence. }
    rewrite E. eexists. split; [reflexivity|]. destruct (Nat.eq_dec p 0) as [P|P]; [rewrite P; split; [reflexivity|]; split; [exact I|constructor]|].
    assert (S0 : suffix 0 = flat_map dat (seq 0 p)) by (unfold suffix; rewrite Nat.sub_0_r; reflexivity). destruct (good_all ltac:(rewrite S0; exact CT) p 0%nat) as (G1 & G2 & G3 & _); [lia|lia|].
    destruct (G3 eq_refl) as (G4 & _). unfold out in *. rewrite Nat.sub_0_r in *. fold ll. rewrite S0 in G4. auto.
  Qed.
End Ranks.

(** ---- sharing the gathers out ---- *)
Lemma numGather_spec n p r : Z.of_nat n < two64 -> (r < p)%nat -> forall i, (i < numGather n p r)%nat <-> (i * p + r < n)%nat.
Proof.
  intros N R i. unfold numGather. rewrite block_decomposition_exact by (unfold in_u64; lia). cbn [local_size].
  pose proof (Z.div_mod (Z.of_nat n) (Z.of_nat p) ltac:(lia)) as DM. pose proof (Z.mod_pos_bound (Z.of_nat n) (Z.of_nat p) ltac:(lia)) as MB. pose proof (Z.div_pos (Z.of_nat n) (Z.of_nat p) ltac:(lia) ltac:(lia)) as DP.
  set (q := Z.of_nat n / Z.of_nat p) in *. set (m := Z.of_nat n mod Z.of_nat p) in *. clearbody q m.
  assert (E : (i * p + r < n)%nat <-> Z.of_nat i * Z.of_nat p + Z.of_nat r < Z.of_nat p * q + m) by (rewrite <- DM; lia). rewrite E. clear E.
  assert (E : (i < Z.to_nat (q + (if (Z.of_nat r <? m)%Z then 1%Z else 0%Z)))%nat <-> Z.of_nat i < q + (if Z.of_nat r <? m then 1 else 0)) by (destruct (Z.of_nat r <? m); lia). rewrite E. clear E.
  destruct (Z.lt_trichotomy (Z.of_nat i) q) as [C|[C|C]].
  - assert (Z.of_nat i * Z.of_nat p <= (q - 1) * Z.of_nat p) by (apply Z.mul_le_mono_nonneg_r; lia). destruct (Z.of_nat r <? m); lia.
  - rewrite C. destruct (Z.ltb_spec (Z.of_nat r) m); lia.
  - assert ((q + 1) * Z.of_nat p <= Z.of_nat i * Z.of_nat p) by (apply Z.mul_le_mono_nonneg_r; lia). destruct (Z.of_nat r <? m); lia.
Qed.
Lemma gNums_one n p r : gNums 1 n p r = map (fun i => (i * p + r)%nat) (seq 0 (numGather n p r)).
Proof. unfold gNums. cbn [repeat concat]. apply app_nil_r. Qed.
Lemma gNums_nth n p r i : Z.of_nat n < two64 -> (r < p)%nat -> nth_error (gNums 1 n p r) i = if Nat.ltb (i * p + r) n then Some (i * p + r)%nat else None.
Proof.
  intros N R. rewrite gNums_one. pose proof (numGather_spec n p r N R i) as S. destruct (Nat.ltb_spec (i * p + r) n) as [C|C].
  - apply S in C. rewrite nth_error_map. rewrite (nth_error_nth' _ 0%nat) by (rewrite seq_length; exact C). rewrite seq_nth by exact C. reflexivity.
  - apply nth_error_None. rewrite map_length, seq_length. destruct (Nat.lt_ge_cases i (numGather n p r)) as [L|L]; [apply S in L; lia|exact L].
Qed.
Lemma iGSz_one sizes p r i : Z.of_nat (length sizes) < two64 -> (r < p)%nat -> iGSz sizes 1 p r i = nth (i * p + r) sizes 0%nat.
Proof.
  intros N R. unfold iGSz. rewrite gNums_nth by assumption. destruct (Nat.ltb_spec (i * p + r) (length sizes)); [reflexivity|]. symmetry. apply nth_overflow. assumption.
Qed.
Lemma nsum_app a b : nsum (a ++ b) = (nsum a + nsum b)%nat.
Proof. induction a as [|x a IH]; [reflexivity|]. cbn. lia. Qed.
Lemma nsum_nth l n : nsum (map (fun g => nth g l 0%nat) (seq 0 n)) = nsum (firstn n l).
Proof.
  revert n. induction l as [|x l IH]; intros n; [rewrite firstn_nil; induction n as [|n IHn]; [reflexivity|]; rewrite seq_S, map_app, nsum_app, IHn; destruct n; reflexivity|].
  destruct n as [|n]; [reflexivity|]. cbn [seq map nth firstn nsum]. rewrite <- seq_shift, map_map. cbn [nth]. rewrite IH. reflexivity.
Qed.
Lemma read_pos_one sizes p r i : Z.of_nat (length sizes) < two64 -> (r < p)%nat -> read_pos sizes 1 p r i = nsum (firstn (i * p + r) sizes).
Proof.
  intros N R. unfold read_pos. rewrite <- nsum_nth.
  assert (ROW : forall j m, (m <= p)%nat -> nsum (map (fun q => iGSz sizes 1 p q j) (seq 0 m)) = nsum (map (fun g => nth g sizes 0%nat) (seq (j * p) m))).
  { intros j m M. f_equal. replace (seq (j * p) m) with (map (fun q => (j * p + q)%nat) (seq 0 m)).
    - rewrite map_map. apply map_ext_in. intros q Q. apply in_seq in Q. apply iGSz_one; [exact N|lia].
    - clear. generalize (j * p)%nat. intros a. replace (seq a m) with (seq (a + 0) m) by (f_equal; lia). generalize 0%nat as b. induction m as [|m IH]; intros b; [reflexivity|]. cbn [seq map]. f_equal. rewrite IH. f_equal. lia. }
  rewrite (ROW i r) by lia.
  assert (ALL : nsum (map (fun j => nsum (map (fun q => iGSz sizes 1 p q j) (seq 0 p))) (seq 0 i)) = nsum (map (fun g => nth g sizes 0%nat) (seq 0 (i * p)))).
  { clear R. induction i as [|i IH]; [reflexivity|]. rewrite seq_S, map_app, nsum_app, IH. cbn [map nsum Nat.add]. rewrite (ROW i p) by lia. rewrite Nat.add_0_r, <- nsum_app, <- map_app. do 2 f_equal. replace (S i * p)%nat with (i * p + p)%nat by lia. rewrite seq_app. reflexivity. }
  rewrite ALL, <- nsum_app, <- map_app. do 2 f_equal. rewrite seq_app. reflexivity.
Qed.
Lemma max_in l x : In x l -> (x <= fold_left Nat.max l 0)%nat.
Proof.
  assert (G : forall l a, (a <= fold_left Nat.max l a)%nat /\ forall x, In x l -> (x <= fold_left Nat.max l a)%nat).
  { clear. induction l as [|y l IH]; intros a; [split; [cbn; lia|intros ? []]|]. cbn [fold_left]. destruct (IH (Nat.max a y)) as (A & B). split; [lia|]. intros x [<-|X]; [lia|auto]. }
  apply G.
Qed.
Lemma concat_slice {A} (gs : list (list A)) g : (g < length gs)%nat -> firstn (length (nth g gs [])) (skipn (nsum (firstn g (map (@length A) gs))) (concat gs)) = nth g gs [].
Proof.
  revert g. induction gs as [|x gs IH]; intros g G; [cbn in G; lia|]. destruct g as [|g].
  - cbn [nth firstn nsum map skipn concat]. rewrite firstn_app, Nat.sub_diag, firstn_all. cbn [firstn]. apply app_nil_r.
  - cbn [nth map firstn nsum concat]. rewrite skipn_app, skipn_all2 by lia. cbn [app]. replace (length x + nsum (firstn g (map (@length A) gs)) - length x)%nat with (nsum (firstn g (map (@length A) gs))) by lia. apply IH. cbn in G. lia.
Qed.
