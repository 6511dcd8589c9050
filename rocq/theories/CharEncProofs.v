From Verif Require Import Base CharEncModel.

(** A byte property checked on all 256 bytes. *)
Lemma all_bytes (P : Z -> bool) :
  forallb P (map Z.of_nat (seq 0 256)) = true -> forall c, 0 <= c < 256 -> P c = true.
Proof.
  intros H c Hc. rewrite forallb_forall in H. apply H.
  apply in_map_iff. exists (Z.to_nat c). split; [lia|]. apply in_seq. lia.
Qed.

Lemma lower_bound_spec key l c :
  (forall e, lower_bound key l c = Some e -> In e l /\ c <= key e) /\
  (lower_bound key l c = None -> forall e, In e l -> key e < c).
Proof.
  unfold lower_bound. split.
  - intros e H. apply find_some in H. destruct H as (H1 & H2). split; [exact H1|]. lia.
  - intros H e He. pose proof (find_none _ _ H e He) as N. cbv beta in N. lia.
Qed.

Lemma pairs_check :
  forallb (fun p => (to_EBCDIC_from_ASCII (fst p) =? snd p) && (to_ASCII_from_EBCDIC (snd p) =? fst p)
                    && (0 <=? fst p) && (fst p <? 256) && (0 <=? snd p) && (snd p <? 256))
          character_encoding_array = true.
Proof. vm_compute. reflexivity. Qed.

Lemma pairs a e : In (a, e) character_encoding_array ->
  to_EBCDIC_from_ASCII a = e /\ to_ASCII_from_EBCDIC e = a /\ is_byte a /\ is_byte e.
Proof.
  intros H. pose proof pairs_check as P. rewrite forallb_forall in P. specialize (P _ H).
  cbn [fst snd] in P. unfold is_byte. lia.
Qed.

(** The bytes ASCII 5B 5D 5E and 80..FE have no equivalent. *)
Definition ascii_mapped (a : Z) : Prop := exists e, In (a, e) character_encoding_array.
Definition ebcdic_mapped (e : Z) : Prop := exists a, In (a, e) character_encoding_array.

Lemma ascii_mapped_iff a : is_byte a ->
  (ascii_mapped a <-> (a < 128 /\ a <> 91 /\ a <> 93 /\ a <> 94) \/ a = 255).
Proof.
  unfold is_byte, ascii_mapped. intros Ha.
  assert (G : eqb (existsb (fun p => fst p =? a) character_encoding_array)
               (((a <? 128) && negb (a =? 91) && negb (a =? 93) && negb (a =? 94)) || (a =? 255)) = true).
  { apply (all_bytes (fun a => eqb (existsb (fun p => fst p =? a) character_encoding_array)
               (((a <? 128) && negb (a =? 91) && negb (a =? 93) && negb (a =? 94)) || (a =? 255))));
    [vm_compute; reflexivity|exact Ha]. }
  apply eqb_prop in G. split.
  - intros (e & He).
    assert (X : existsb (fun p => fst p =? a) character_encoding_array = true).
    { apply existsb_exists. exists (a, e). split; [exact He|]. cbn. lia. }
    rewrite X in G. lia.
  - intros H. assert (X : existsb (fun p => fst p =? a) character_encoding_array = true) by (rewrite G; lia).
    apply existsb_exists in X. destruct X as ((a', e) & Hin & E). cbn in E.
    exists e. replace a with a' by lia. exact Hin.
Qed.

Lemma maps_bytes_to_bytes c : is_byte c -> is_byte (to_ASCII_from_EBCDIC c) /\ is_byte (to_EBCDIC_from_ASCII c).
Proof.
  unfold is_byte. intros H.
  pose proof (all_bytes (fun c => (0 <=? to_ASCII_from_EBCDIC c) && (to_ASCII_from_EBCDIC c <? 256)
     && (0 <=? to_EBCDIC_from_ASCII c) && (to_EBCDIC_from_ASCII c <? 256)) ltac:(vm_compute; reflexivity) c H).
  lia.
Qed.

(** ---- text header ---- *)
Lemma resize_length n t : length (resize n t) = n.
Proof. unfold resize. rewrite app_length, firstn_length, repeat_length. lia. Qed.

Lemma resize_short n t : (length t <= n)%nat -> resize n t = t ++ repeat 0 (n - length t).
Proof. intros. unfold resize. rewrite firstn_all2 by lia. reflexivity. Qed.

Lemma stored_text_length t : length (stored_text t) = text_size.
Proof. destruct t; [apply resize_length|apply repeat_length]. Qed.

Lemma count_if_app {A} (f : A -> bool) l1 l2 : count_if f (l1 ++ l2) = (count_if f l1 + count_if f l2)%nat.
Proof. unfold count_if. rewrite filter_app, app_length. reflexivity. Qed.
Lemma count_if_repeat0 {A} (f : A -> bool) x n : f x = false -> count_if f (repeat x n) = 0%nat.
Proof. intros H. unfold count_if. induction n; cbn; [reflexivity|rewrite H; exact IHn]. Qed.

Lemma nul_unprintable : is_printable_ASCII 0 = false /\ is_printable_EBCDIC 0 = false.
Proof. vm_compute. split; reflexivity. Qed.

Lemma text_roundtrip (t rest : list Z) :
  (length t <= text_size)%nat ->
  (count_if is_printable_EBCDIC t < count_if is_printable_ASCII t)%nat ->
  read_text (stored_text (Some t) ++ rest) = t ++ repeat 0 (text_size - length t).
Proof.
  intros Hl Hc. unfold read_text.
  assert (E : firstn text_size (stored_text (Some t) ++ rest) = t ++ repeat 0 (text_size - length t)).
  { rewrite firstn_app, stored_text_length, Nat.sub_diag, firstn_O, app_nil_r.
    rewrite firstn_all2 by (rewrite stored_text_length; lia). apply resize_short; exact Hl. }
  rewrite E. rewrite !count_if_app.
  rewrite !(count_if_repeat0 _ 0) by (apply nul_unprintable).
  rewrite !Nat.add_0_r.
  destruct (Nat.ltb_spec (count_if is_printable_EBCDIC t) (count_if is_printable_ASCII t)); [reflexivity|lia].
Qed.

Lemma text_longer_truncated (t rest : list Z) :
  (text_size <= length t)%nat ->
  (count_if is_printable_EBCDIC (firstn text_size t) < count_if is_printable_ASCII (firstn text_size t))%nat ->
  read_text (stored_text (Some t) ++ rest) = firstn text_size t.
Proof.
  intros Hl Hc. unfold read_text.
  assert (E : firstn text_size (stored_text (Some t) ++ rest) = firstn text_size t).
  { rewrite firstn_app, stored_text_length, Nat.sub_diag, firstn_O, app_nil_r.
    rewrite firstn_all2 by (rewrite stored_text_length; lia).
    cbn [stored_text]. unfold resize. replace (text_size - length t)%nat with 0%nat by lia.
    cbn [repeat]. apply app_nil_r. }
  rewrite E. destruct (Nat.ltb_spec (count_if is_printable_EBCDIC (firstn text_size t)) (count_if is_printable_ASCII (firstn text_size t))); [reflexivity|lia].
Qed.

Lemma unset_text_reads_nul rest : read_text (stored_text None ++ rest) = repeat 0 text_size.
Proof.
  unfold read_text. cbn [stored_text].
  rewrite firstn_app, repeat_length, Nat.sub_diag, firstn_O, app_nil_r.
  rewrite firstn_all2 by (rewrite repeat_length; lia).
  rewrite !(count_if_repeat0 _ 0) by (apply nul_unprintable). cbn [Nat.ltb Nat.leb].
  generalize text_size as n. intro n. induction n; [reflexivity|]. cbn [repeat map]. rewrite IHn. reflexivity.
Qed.

(** An EBCDIC header is decoded character by character. *)
Lemma ebcdic_text_decoded (h rest : list Z) :
  length h = text_size ->
  (count_if is_printable_ASCII h <= count_if is_printable_EBCDIC h)%nat ->
  read_text (h ++ rest) = map to_ASCII_from_EBCDIC h.
Proof.
  intros Hl Hc. unfold read_text. rewrite <- Hl, firstn_app, Nat.sub_diag, firstn_O, app_nil_r, firstn_all.
  destruct (Nat.ltb_spec (count_if is_printable_EBCDIC h) (count_if is_printable_ASCII h)); [lia|reflexivity].
Qed.
