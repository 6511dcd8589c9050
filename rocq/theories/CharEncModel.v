(** Model of src/utils/encoding/character_encoding.cc. *)
From Verif Require Import Base.

(** character_encoding.cc:63-126: the 126 (ASCII, EBCDIC) pairs, literally. *)
Definition character_encoding_array : list (Z * Z) := [
  (0, 0); (1, 1); (2, 2); (3, 3); (4, 55); (5, 45); (6, 46); (7, 47);
  (8, 22); (9, 5); (10, 37); (11, 11); (12, 12); (13, 13); (14, 14); (15, 15);
  (16, 16); (17, 17); (18, 18); (19, 19); (20, 60); (21, 61); (22, 50); (23, 38);
  (24, 24); (25, 25); (26, 63); (27, 39); (28, 28); (29, 29); (30, 30); (31, 31);
  (32, 64); (33, 90); (34, 127); (35, 123); (36, 91); (37, 108); (38, 80); (39, 125);
  (40, 77); (41, 93); (42, 92); (43, 78); (44, 107); (45, 96); (46, 75); (47, 97);
  (48, 240); (49, 241); (50, 242); (51, 243); (52, 244); (53, 245); (54, 246); (55, 247);
  (56, 248); (57, 249); (58, 122); (59, 94); (60, 76); (61, 126); (62, 110); (63, 111);
  (64, 124); (65, 193); (66, 194); (67, 195); (68, 196); (69, 197); (70, 198); (71, 199);
  (72, 200); (73, 201); (74, 209); (75, 210); (76, 211); (77, 212); (78, 213); (79, 214);
  (80, 215); (81, 216); (82, 217); (83, 226); (84, 227); (85, 228); (86, 229); (87, 230);
  (88, 231); (89, 232); (90, 233); (92, 224); (95, 109); (96, 121); (97, 129); (98, 130);
  (99, 131); (100, 132); (101, 133); (102, 134); (103, 135); (104, 136); (105, 137); (106, 145);
  (107, 146); (108, 147); (109, 148); (110, 149); (111, 150); (112, 151); (113, 152); (114, 153);
  (115, 162); (116, 163); (117, 164); (118, 165); (119, 166); (120, 167); (121, 168); (122, 169);
  (123, 192); (124, 79); (125, 208); (126, 161); (127, 7); (255, 255)
].

(** character_encoding.cc:54, the SUB character {ascii, ebcdic}. *)
Definition char_sub : Z * Z := (26, 63).

(** std::sort by a key (character_encoding.cc:133-161); keys are distinct, so any
    correct sort gives the same array.  Insertion sort stands for std::sort. *)
Fixpoint insert_by (key : Z * Z -> Z) (x : Z * Z) (l : list (Z * Z)) : list (Z * Z) :=
  match l with
  | [] => [x]
  | y :: r => if key x <? key y then x :: l else y :: insert_by key x r
  end.
Definition sort_by (key : Z * Z -> Z) (l : list (Z * Z)) : list (Z * Z) :=
  fold_right (insert_by key) [] l.
(** character_encoding.cc:167, 170 *)
Definition ebcdic_sorted_array : list (Z * Z) := sort_by snd character_encoding_array.
Definition ascii_sorted_array : list (Z * Z) := sort_by fst character_encoding_array.

(** std::lower_bound on a sorted range: the first element whose key is not
    less than the searched byte. *)
Definition lower_bound (key : Z * Z -> Z) (l : list (Z * Z)) (c : Z) : option (Z * Z) :=
  find (fun e => negb (key e <? c)) l.

(** character_encoding.cc:176-192.  Note that the element found is returned
    without checking that its key equals the searched byte. *)
Definition to_ASCII_from_EBCDIC (c : Z) : Z :=
  match lower_bound snd ebcdic_sorted_array c with
  | None => fst char_sub
  | Some e => fst e
  end.
(** character_encoding.cc:194-210 *)
Definition to_EBCDIC_from_ASCII (c : Z) : Z :=
  match lower_bound fst ascii_sorted_array c with
  | None => snd char_sub
  | Some e => snd e
  end.
(** character_encoding.cc:212-216 *)
Definition is_printable_ASCII (c : Z) : bool := (32 <=? c) && (c <=? 126).
(** character_encoding.cc:218-221 *)
Definition is_printable_EBCDIC (c : Z) : bool := is_printable_ASCII (to_ASCII_from_EBCDIC c).

(** std::string::resize(3200) of src/WriteSEGY.cc:142: truncate or pad with NUL. *)
Definition resize (n : nat) (t : list Z) : list Z :=
  firstn n t ++ repeat 0 (n - length t).
Definition text_size : nat := 3200.

(** What src/ReadSEGY.cc:76-102 makes of the first 3200 header bytes. *)
Definition count_if {A} (f : A -> bool) (l : list A) : nat := length (filter f l).
Definition read_text (header : list Z) : list Z :=
  let t := firstn text_size header in
  if Nat.ltb (count_if is_printable_EBCDIC t) (count_if is_printable_ASCII t)   (* 93 *)
  then t                                                                        (* 95 *)
  else map to_ASCII_from_EBCDIC t.                                              (* 99-101 *)

(** What src/WriteSEGY.cc:138-145 and 67-71 put in the first 3200 header bytes
    when writeText(t) is the last text call; the text is unset ([None]) if
    writeText was never called, and the header buffer is zero then. *)
Definition stored_text (t : option (list Z)) : list Z :=
  match t with
  | Some t => resize text_size t
  | None => repeat 0 text_size
  end.
