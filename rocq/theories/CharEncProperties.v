(** Properties C10-C12: character encodings and the text header. *)
From Verif Require Import Base CharEncModel CharEncProofs.

(** C10: for each of the 126 shared characters both directions round trip. *)
Theorem C10_round_trip :
  forall a e, In (a, e) character_encoding_array ->
  to_EBCDIC_from_ASCII a = e /\ to_ASCII_from_EBCDIC e = a /\
  to_ASCII_from_EBCDIC (to_EBCDIC_from_ASCII a) = a /\ to_EBCDIC_from_ASCII (to_ASCII_from_EBCDIC e) = e.
Proof.
  intros a e H. destruct (pairs a e H) as (H1 & H2 & _). rewrite H1, H2, H1. auto.
Qed.
Print Assumptions C10_round_trip.
(** The repertoire is 7-bit ASCII but for the brackets [ and ] and the caret, plus FF. *)
Theorem C10_repertoire :
  forall a, is_byte a ->
  ((exists e, In (a, e) character_encoding_array) <-> (a < 128 /\ a <> 91 /\ a <> 93 /\ a <> 94) \/ a = 255).
Proof. exact ascii_mapped_iff. Qed.
Print Assumptions C10_repertoire.
Theorem C10_injective :
  forall a1 e1 a2 e2, In (a1, e1) character_encoding_array -> In (a2, e2) character_encoding_array ->
  (to_EBCDIC_from_ASCII a1 = to_EBCDIC_from_ASCII a2 -> a1 = a2) /\
  (to_ASCII_from_EBCDIC e1 = to_ASCII_from_EBCDIC e2 -> e1 = e2).
Proof.
  intros a1 e1 a2 e2 H1 H2. destruct (pairs _ _ H1) as (A1 & A2 & _), (pairs _ _ H2) as (B1 & B2 & _).
  rewrite A1, A2, B1, B2. split; intros E; subst; congruence.
Qed.
Print Assumptions C10_injective.
(** Letters, digits and the blank have their standard (EBCDIC-US) codes. *)
Example C10_nonvacuous : map to_EBCDIC_from_ASCII [65; 90; 97; 122; 48; 57; 32; 67] = [193; 233; 129; 169; 240; 249; 64; 195]
  /\ In (65, 193) character_encoding_array.
Proof. split; [vm_compute; reflexivity|]. cbn. tauto. Qed.

(** C11 is false: the lookup returns the next entry of the table, e.g. the
    ASCII bracket 5B becomes EBCDIC E0 (backslash), and EBCDIC 04 becomes
    ASCII 09, not SUB (3F, resp. 1A). *)
Theorem C11_unmapped_to_SUB_refuted :
  (exists a, is_byte a /\ ~ (exists e, In (a, e) character_encoding_array) /\ to_EBCDIC_from_ASCII a <> 63) /\
  (exists e, is_byte e /\ ~ (exists a, In (a, e) character_encoding_array) /\ to_ASCII_from_EBCDIC e <> 26).
Proof.
  split.
  - exists 91. split; [unfold is_byte; lia|]. split; [|vm_compute; congruence].
    rewrite C10_repertoire by (unfold is_byte; lia). lia.
  - exists 4. split; [unfold is_byte; lia|]. split; [|vm_compute; congruence].
    intros (a & H). apply pairs in H. destruct H as (H1 & H2 & _). subst a. vm_compute in H1. congruence.
Qed.
Print Assumptions C11_unmapped_to_SUB_refuted.
(** What happens instead: no unmapped byte becomes SUB. *)
Theorem C11_never_SUB :
  forall c, is_byte c ->
  (to_EBCDIC_from_ASCII c = 63 -> c = 26) /\ (to_ASCII_from_EBCDIC c = 26 -> 62 <= c <= 63).
Proof.
  unfold is_byte. intros c Hc.
  pose proof (all_bytes (fun c => implb (to_EBCDIC_from_ASCII c =? 63) (c =? 26) &&
                 implb (to_ASCII_from_EBCDIC c =? 26) ((62 <=? c) && (c <=? 63)))
              ltac:(vm_compute; reflexivity) c Hc) as H. cbv beta in H.
  split; intros E; rewrite E in H; cbn in H; lia.
Qed.
Print Assumptions C11_never_SUB.

(** C12, restricted: a text with more ASCII-printable than EBCDIC-printable
    characters round trips, padded with NULs. *)
Theorem C12_text_round_trip_partial :
  forall t rest, (length t <= text_size)%nat ->
  (length (filter is_printable_EBCDIC t) < length (filter is_printable_ASCII t))%nat ->
  read_text (stored_text (Some t) ++ rest) = t ++ repeat 0 (text_size - length t).
Proof. exact text_roundtrip. Qed.
Print Assumptions C12_text_round_trip_partial.
Example C12_nonvacuous : (* "C 1 CLIENT" *)
  let t := [67; 32; 49; 32; 67; 76; 73; 69; 78; 84] in
  (length t <= text_size)%nat /\ (length (filter is_printable_EBCDIC t) < length (filter is_printable_ASCII t))%nat.
Proof.
  cbv zeta. split; [unfold text_size; cbn [length]; lia|].
  apply Nat.ltb_lt. vm_compute. reflexivity.
Qed.
Theorem C12_long_text_is_truncated :
  forall t rest, (text_size <= length t)%nat ->
  (length (filter is_printable_EBCDIC (firstn text_size t)) < length (filter is_printable_ASCII (firstn text_size t)))%nat ->
  read_text (stored_text (Some t) ++ rest) = firstn text_size t.
Proof. exact text_longer_truncated. Qed.
Print Assumptions C12_long_text_is_truncated.
Theorem C12_no_text_reads_NUL : forall rest, read_text (stored_text None ++ rest) = repeat 0 text_size.
Proof. exact unset_text_reads_nul. Qed.
Print Assumptions C12_no_text_reads_NUL.
Theorem C12_ebcdic_header_decoded :
  forall h rest, length h = text_size ->
  (length (filter is_printable_ASCII h) <= length (filter is_printable_EBCDIC h))%nat ->
  read_text (h ++ rest) = map to_ASCII_from_EBCDIC h.
Proof. exact ebcdic_text_decoded. Qed.
Print Assumptions C12_ebcdic_header_decoded.
(** C12 in full is false: the lower-case text "abc" is taken for EBCDIC
    (each of its bytes is also a printable EBCDIC byte), so it comes back changed. *)
Theorem C12_text_round_trip_refuted :
  exists t, (length t <= text_size)%nat /\ (forall c, In c t -> 32 <= c <= 126) /\
  forall rest, read_text (stored_text (Some t) ++ rest) <> t ++ repeat 0 (text_size - length t).
Proof.
  exists [97; 98; 99]. split; [unfold text_size; cbn [length]; lia|].
  split; [cbn [In]; intros c; lia|].
  intros rest.
  assert (E : stored_text (Some [97; 98; 99]) = [97; 98; 99] ++ repeat 0 (text_size - 3)).
  { cbn [stored_text]. apply resize_short. unfold text_size; cbn [length]; lia. }
  rewrite ebcdic_text_decoded.
  - rewrite E. cbn [app map]. intros H. apply (f_equal (fun l => nth 0 l 0)) in H. cbn [nth] in H. vm_compute in H. discriminate.
  - apply stored_text_length.
  - rewrite E, !count_if_app, !(count_if_repeat0 _ 0) by (apply nul_unprintable).
    apply Nat.leb_le. vm_compute. reflexivity.
Qed.
Print Assumptions C12_text_round_trip_refuted.
