(** util/makerep.cc:170-215 mpiMakeSEGYCopy, all ranks at once.  A byte is represented
    by its position in the input, so a buffer is a list of positions. *)
From Verif Require Import Base DecompModel DataIOModel UtilModel.
Import ListNotations.
Open Scope Z_scope.

(** A write: output position and the bytes. *)
Definition write := (Z * list Z)%type.
Definition positions (a n : Z) : list Z := map (fun k => a + k) (zr n).
Definition decs (tsz p off : Z) (r : nat) : option piece := blockDecomp tsz rep_bsz p (Z.of_nat r) off.
(** The value on every rank, if defined on all. *)
Fixpoint everywhere {A} (f : nat -> option A) (rs : list nat) : option (list A) :=
  match rs with [] => Some [] | r :: rs => obind (f r) (fun a => obind (everywhere f rs) (fun l => Some (a :: l))) end.
(** out->write(off, lsz, buf): a buffer shorter than lsz is read past its end. *)
Definition put (off lsz : Z) (buf : list Z) : option write :=
  if (lsz <? 0) || (Z.of_nat (length buf) <? lsz) then None else Some (off, firstn (Z.to_nat lsz) buf).
(** makerep.cc:139-160 writeArb and the loop 208-212 over the copies j. *)
Fixpoint std_copies (p : nat) (fsz i tsz : Z) (js : list Z) (o : list piece) (v : list (list Z)) : option (list write) :=
  match js with
  | [] => Some []
  | j :: js =>
    let off := u64 (hosz + u64 ((fsz - hosz) * j) + i) in
    obind (everywhere (decs tsz (Z.of_nat p) off) (seq 0 p)) (fun n =>
    obind (if (p =? 1)%nat then Some v
           else everywhere (exchanged p (fun r => nth r o (mkPiece 0 0)) (fun r => nth r n (mkPiece 0 0)) (fun r => nth r v [])) (seq 0 p)) (fun v' =>
    obind (everywhere (fun r => let d := nth r n (mkPiece 0 0) in put (off + global_offset d) (local_size d) (nth r v' [])) (seq 0 p)) (fun ws =>
    obind (std_copies p fsz i tsz js n v') (fun rest => Some (ws ++ rest)))))
  end.
(** makerep.cc:186-213: one chunk. *)
Definition std_chunk (p : nat) (fsz rep i : Z) : option (list write) :=
  let step := rep_step (Z.of_nat p) in
  let rblock := if i + step <? fsz then step else fsz - i in
  obind (everywhere (decs rblock (Z.of_nat p) i) (seq 0 p)) (fun d =>
  let bufs := map (fun d => positions (i + global_offset d) (local_size d)) d in
  obind (everywhere (fun r => let d := nth r d (mkPiece 0 0) in put (i + global_offset d) (local_size d) (nth r bufs [])) (seq 0 p)) (fun first =>
  obind (if i =? 0
         then everywhere (fun r => let d := nth r d (mkPiece 0 0) in
                if global_offset d =? 0
                then (if local_size d <? hosz then None else Some (mkPiece 0 (local_size d - hosz), skipn (Z.to_nat hosz) (nth r bufs [])))
                else Some (mkPiece (u64 (global_offset d - hosz)) (local_size d), nth r bufs [])) (seq 0 p)
         else Some (combine d bufs)) (fun ov =>
  obind (std_copies p fsz i (if i =? 0 then rblock - hosz else rblock) (map (fun k => k + 1) (zr (rep - 1))) (map fst ov) (map snd ov)) (fun rest =>
  Some (first ++ rest))))).
Fixpoint std_chunks (f : Z -> option (list write)) (is : list Z) : option (list write) :=
  match is with [] => Some [] | i :: is => obind (f i) (fun a => obind (std_chunks f is) (fun b => Some (a ++ b))) end.
Definition makeSEGYCopy (p : nat) (fsz rep : Z) : option (list write) :=
  std_chunks (std_chunk p fsz rep) (chunks fsz (rep_step (Z.of_nat p))).
