(** Model of src/WriteSEGY.cc and src/ReadSEGY.cc on top of the file access layer.

    Simplifications: the caller's arrays are byte memories (address 0 is their
    first byte) of a little-endian host; PIOL_PARAM_NULL and TRACE_NULL are [None];
    the object layer has succeeded unless it divides by zero; the order in which
    the ranks' transfers reach the file is the order of the history. *)
From Verif Require Import Base NumEncModel CharEncModel LayoutModel DataIOModel RuleModel DoubleModel ParamModel.

(** ---- samples in host memory ---- *)
(** The 32-bit pattern at address a of a little-endian host. *)
Definition le32 (m : mem) (a : Z) : Z := m a + 256 * m (a + 1) + 65536 * m (a + 2) + 16777216 * m (a + 3).
Definition le_bytes (v : Z) : list Z := [v mod 256; v / 256 mod 256; v / 65536 mod 256; v / 16777216 mod 256].
(** The i-th float of a trace buffer. *)
Definition sample (m : mem) (i : Z) : Z := le32 m (4 * i).

(** WriteSEGY.cc:216-228: the samples are turned into big endian in place. *)
Definition to_disk_step (m : mem) (i : Z) : mem := put m (4 * i, to_be_float (le32 m (4 * i))).
Definition to_disk (n : Z) (m : mem) : mem := fold_left to_disk_step (zr n) m.
(** WriteSEGY.cc:263-274 and ReadSEGY.cc:199-206: and back. *)
Definition from_disk_step (m : mem) (i : Z) : mem :=
  put m (4 * i, le_bytes (from_be_float (m (4 * i)) (m (4 * i + 1)) (m (4 * i + 2)) (m (4 * i + 3)))).
Definition from_disk (n : Z) (m : mem) : mem := fold_left from_disk_step (zr n) m.
(** ReadSEGY.cc:188-197: the float is first converted to a double, and the first
    four bytes of that double (the low half on a little-endian host) are taken as
    the IBM number.  The low half of the double made from a float with fraction m
    is m shifted left by 29, or by more if the float is subnormal. *)
Definition double_low (bits : Z) : Z :=
  let e := bits / 8388608 mod 256 in
  let m := bits mod 8388608 in
  if (e =? 0) && negb (m =? 0) then (m * 2 ^ (29 + (23 - Z.log2 m))) mod two32 else (m * 2 ^ 29) mod two32.
Definition ibm_step (om : option mem) (i : Z) : option mem :=
  obind om (fun m =>
  match le_bytes (double_low (le32 m (4 * i))) with
  | [b0; b1; b2; b3] => obind (from_IBM_to_float true b0 b1 b2 b3) (fun v => Some (put m (4 * i, le_bytes v)))
  | _ => None
  end).
Definition from_disk_ibm (n : Z) (m : mem) : option mem := fold_left ibm_step (zr n) (Some m).

(** ---- which traces ---- *)
(** A range (writeTrace, readTrace) or a list (the NonContiguous functions). *)
Inductive target := Range (offset sz : Z) | Listed (offs : list Z).
Definition tcount (t : target) : Z := match t with Range _ n => n | Listed l => Z.of_nat (length l) end.
(** offunc: ReadSEGY.cc:228 and 240, the file position of the i-th trace *)
Definition tpos (t : target) (i : Z) : Z := match t with Range o _ => o + i | Listed l => nth (Z.to_nat i) l 0 end.
(** The part of a trace that is moved. *)
Inductive part := Full | Head | Samp.
Definition obj_io {S} (step : S -> Z -> Z -> S) (maxSize : Z) (sizes : list Z) (pt : part) (t : target) (ns : Z) (s : S) : option S :=
  match t, pt with
  | Range o n, Full => objDO step maxSize sizes o ns n 0 s
  | Range o n, Head => objDOMD step maxSize sizes o ns n 0 s
  | Range o n, Samp => objDODF step maxSize sizes o ns n 0 s
  | Listed l, Full => objDO_list step maxSize sizes l ns 0 s
  | Listed l, Head => objDOMD_list step maxSize sizes l ns 0 s
  | Listed l, Samp => objDODF_list step maxSize sizes l ns 0 s
  end.
(** std::copy of n bytes *)
Definition copy_bytes (dst : mem) (d : Z) (src : mem) (s n : Z) : mem :=
  fun x => if (d <=? x) && (x <? d + n) then src (s + (x - d)) else dst x.

(** ---- writing ---- *)
(** WriteSEGY.cc:245-250: the samples go behind the headers. *)
Definition put_samples (ns sz : Z) (tb buf : mem) : mem :=
  fold_left (fun b i => copy_bytes b (i * getDOSz ns + getMDSz) tb (i * getDFSz ns) (getDFSz ns)) (zr sz) buf.
(** WriteSEGY.cc:201-275.  The result is the file and the caller's samples. *)
Definition writeTraceT (maxSize : Z) (sizes : list Z) (ns : Z) (t : target) (trc : option mem) (prm : option param) (skip : Z)
    (f : file) : option (file * option mem) :=
  let sz := tcount t in
  let tb := option_map (to_disk (ns * sz)) trc in
  obind (match prm with
         | None => match tb with
                   | Some tb => obj_io (write_step tb) maxSize sizes Samp t ns f          (* 230-233 *)
                   | None => None
                   end
         | Some p =>
           let blockSz := match trc with None => getMDSz | Some _ => getDOSz ns end in    (* 236 *)
           obind (insertParam sz p (fun _ => 0) (u64 (blockSz - getMDSz)) skip) (fun buf =>
           match tb with
           | None => obj_io (write_step buf) maxSize sizes Head t ns f                    (* 242-243 *)
           | Some tb => obj_io (write_step (put_samples ns sz tb buf)) maxSize sizes Full t ns f
           end)
         end) (fun f' => Some (f', option_map (from_disk (ns * sz)) tb)).

(** WriteInterface.hh:31-50 and WriteSEGY.hh: what a writer remembers; [w_err] is
    whether the log holds an error. *)
Record wstate := mkW { w_ns : Z; w_nt : Z; w_text : list Z; w_inc : D;
  w_nsSet : bool; w_writeHO : bool; w_resize : bool; w_stalent : bool; w_err : bool }.
(** WriteSEGY.cc:33-43 *)
Definition w_init : wstate := mkW 0 0 [] (d_of_Z 0) false true false false false.
(** The calls of the public interface. *)
Inductive wop :=
| WNs (n : Z) | WNt (n : Z) | WInc (d : D) | WText (s : list Z)
| WTrace (sizes : list Z) (t : target) (trc : option mem) (prm : option param) (skip : Z).

Fixpoint text_eqb (a b : list Z) : bool :=
  match a, b with [], [] => true | x :: a, y :: b => (x =? y) && text_eqb a b | _, _ => false end.
Definition fl (b : bool) (x : bool) : bool := if b then true else x.
(** The effect of a call on the writer's own state.
    WriteSEGY.cc:147-162 (ns), 164-171 (nt), 173-187 (inc), 138-145 (text),
    278-316 (traces: the error for a missing ns does not stop the call). *)
Definition wlocal (o : wop) (w : wstate) : wstate :=
  match o with
  | WNs n =>
    if 32767 <? n then mkW (w_ns w) (w_nt w) (w_text w) (w_inc w) (w_nsSet w) (w_writeHO w) (w_resize w) (w_stalent w) true
    else let c := negb (w_ns w =? n) in
         mkW n (w_nt w) (w_text w) (w_inc w) true (fl c (w_writeHO w)) (fl c (w_resize w)) (w_stalent w) (w_err w)
  | WNt n =>
    mkW (w_ns w) n (w_text w) (w_inc w) (w_nsSet w) (w_writeHO w) (fl (negb (w_nt w =? n)) (w_resize w)) false (w_err w)
  | WInc d =>
    if disnormal d then
      mkW (w_ns w) (w_nt w) (w_text w) d (w_nsSet w) (fl (negb (deqb (w_inc w) d)) (w_writeHO w)) (w_resize w) (w_stalent w) (w_err w)
    else mkW (w_ns w) (w_nt w) (w_text w) (w_inc w) (w_nsSet w) (w_writeHO w) (w_resize w) (w_stalent w) true
  | WText s =>
    if text_eqb (w_text w) s then w
    else mkW (w_ns w) (w_nt w) (resize text_size s) (w_inc w) (w_nsSet w) true (w_resize w) (w_stalent w) (w_err w)
  | WTrace _ t _ _ _ =>
    let nt' := match t with
               | Range o n => Z.max (u64 (o + n)) (w_nt w)
               | Listed [] => w_nt w
               | Listed l => Z.max (u64 (last l 0 + 1)) (w_nt w)
               end in
    mkW (w_ns w) nt' (w_text w) (w_inc w) (w_nsSet w) (w_writeHO w) (w_resize w) true (w_err w || negb (w_nsSet w))
  end.
(** The effect of a call on the file; [ns] is the writer's. *)
Definition wfile (maxSize : Z) (o : wop) (ns : Z) (f : file) : option file :=
  match o with
  | WTrace sizes t trc prm skip => option_map fst (writeTraceT maxSize sizes ns t trc prm skip f)
  | _ => Some f
  end.
(** A history: which rank called what, in the order of the effects on the file. *)
Definition history := list (nat * wop).
Definition rank_ops (h : history) (r : nat) : list wop := map snd (filter (fun x => Nat.eqb (fst x) r) h).
Definition rank_state (h : history) (r : nat) : wstate := fold_left (fun w o => wlocal o w) (rank_ops h r) w_init.
(** The file after a history; [done] is what happened before. *)
Fixpoint run_from (maxSize : Z) (done h : history) (f : file) : option file :=
  match h with
  | [] => Some f
  | (r, o) :: h' => obind (wfile maxSize o (w_ns (rank_state done r)) f) (run_from maxSize (done ++ [(r, o)]) h')
  end.
Definition run (maxSize : Z) (h : history) (f : file) : option file := run_from maxSize [] h f.

(** MPI_File_set_size (DataMPIIO.cc:367-378); the bytes gained are zero. *)
Definition set_size (n : Z) (f : file) : file :=
  mkFile n (fun q => if q <? Z.min n (fsize f) then fbyte f q else 0).
(** WriteSEGY.cc:65-121: the 3600-byte header of rank 0.  [None]: lround of a NaN. *)
Definition incFactor : D := d_bin 4722366482869645 (-72).   (* 1e-6 *)
Definition header_writes (w : wstate) (k : Z) : list (Z * list Z) :=
  [ (0, w_text w); (3220, to_big_endian 2 (s16 (w_ns w))); (3224, to_big_endian 2 5);
    (3216, to_big_endian 2 (s16 k)); (3254, to_big_endian 2 1); (3500, to_big_endian 2 256);
    (3502, to_big_endian 2 1); (3504, to_big_endian 2 0) ].
Definition header (w : wstate) : option mem :=
  obind (dlround (ddiv (w_inc w) incFactor)) (fun k => Some (apply_writes (header_writes w k) (fun _ => 0))).
(** Closing (WriteSEGY.cc:53-124 with calcNt 128-136): the collective operations of
    one rank.  Ranks whose lists differ hang or abort. *)
Inductive cevent := CMax | CSize (n : Z) | CHeader.
Definition close_nt (ws : list wstate) (w : wstate) : Z := if w_stalent w then zmax (map w_nt ws) else w_nt w.
Definition close_events (ws : list wstate) (w : wstate) : list cevent :=
  if w_err w then [] else
  (if w_stalent w then [CMax] else [])
  ++ (if w_stalent w || w_resize w then [CSize (getFileSz (close_nt ws w) (w_ns w))] else [])
  ++ (if w_writeHO w then [CHeader] else []).
Definition close_event (maxSize : Z) (w0 : wstate) (of : option file) (e : cevent) : option file :=
  obind of (fun f =>
  match e with
  | CMax => Some f
  | CSize n => Some (set_size n f)
  | CHeader => obind (header w0) (fun h => objHO (write_step h) maxSize [getHOSz] 0 f)
  end).
Definition cevent_eqb (a b : cevent) : bool :=
  match a, b with CMax, CMax | CHeader, CHeader => true | CSize n, CSize m => n =? m | _, _ => false end.
Fixpoint cevents_eqb (a b : list cevent) : bool :=
  match a, b with [], [] => true | x :: a, y :: b => cevent_eqb x y && cevents_eqb a b | _, _ => false end.
Definition close (maxSize : Z) (ws : list wstate) (f : file) : option file :=
  match ws with
  | [] => None
  | w0 :: _ =>
    if forallb (fun w => cevents_eqb (close_events ws w) (close_events ws w0)) ws
    then fold_left (close_event maxSize w0) (close_events ws w0) (Some f) else None
  end.
(** All ranks run, then all close. *)
Definition write_file (maxSize : Z) (p : nat) (h : history) (f0 : file) : option file :=
  obind (run maxSize h f0) (close maxSize (map (rank_state h) (seq 0 p))).

(** ---- reading ---- *)
Record reader := mkR { r_ns : Z; r_nt : Z; r_inc : D; r_format : Z; r_text : list Z }.
(** ReadSEGY.cc:34-104; IEEE is 5 (segy_utils.hh), the default of ReadSEGY.hh:38. *)
Definition open_file (maxSize : Z) (sizes : list Z) (f : file) : option reader :=
  if 3600 <=? fsize f then
    obind (objHO (read_step f) maxSize sizes 0 (fun _ => 0)) (fun h =>
    let ns := read_ns (h 3220) (h 3221) in
    obind (getNt (fsize f) ns) (fun nt =>
    Some (mkR ns nt (dmul incFactor (d_of_Z (from_be_int16 (h 3216) (h 3217))))
              (from_be_int16 (h 3224) (h 3225)) (read_text (map h (zr getTextSz))))))
  else Some (mkR 0 0 (d_of_Z 0) 5 []).

(** ReadSEGY.cc:166-171 *)
Definition take_samples (ns sz : Z) (buf tb : mem) : mem :=
  fold_left (fun b i => copy_bytes b (i * getDFSz ns) buf (i * getDOSz ns + getMDSz) ((i + 1) * getDOSz ns - (i * getDOSz ns + getMDSz))) (zr sz) tb.
(** ReadSEGY.cc:178-180: setPrm(i + skip, ltn, offunc(i)) *)
Definition set_labels (t : target) (sz skip : Z) (p : param) : option param :=
  fold_left (fun op i => obind op (setPrm (i + skip) 1 (VI (tpos t i)))) (zr sz) (Some p).
(** ReadSEGY.cc:183-209 *)
Definition convert_read (fmt n : Z) (trc : option mem) : option (option mem) :=
  match trc with
  | None => Some None
  | Some m => if fmt =? 1 then option_map Some (from_disk_ibm n m) else Some (Some (from_disk n m))
  end.
(** ReadSEGY.cc:134-210 *)
Definition readTraceT (maxSize : Z) (sizes : list Z) (fmt ns : Z) (t : target) (trc : option mem) (prm : option param) (skip : Z)
    (f : file) : option (option mem * option param) :=
  let sz := tcount t in
  obind (match prm with
         | None => match trc with
                   | Some tb => option_map (fun m => (Some m, None)) (obj_io (read_step f) maxSize sizes Samp t ns tb)
                   | None => None
                   end
         | Some p =>
           obind (match trc with
                  | None => option_map (fun b => (b, None)) (obj_io (read_step f) maxSize sizes Head t ns (fun _ => 0))
                  | Some tb => option_map (fun b => (b, Some (take_samples ns sz b tb)))
                                          (obj_io (read_step f) maxSize sizes Full t ns (fun _ => 0))
                  end) (fun '(buf, tb) =>
           obind (extractParam sz buf 0 p (match trc with None => 0 | Some _ => getDFSz ns end) skip) (fun p =>
           obind (set_labels t sz skip p) (fun p => Some (tb, Some p))))
         end) (fun '(tb, p) =>
  obind (convert_read fmt (ns * sz) tb) (fun tb => Some (tb, p))).
(** ReadSEGY.cc:219: the number of traces really read. *)
Definition clamp (nt offset sz : Z) : Z :=
  if sz =? 0 then sz else if nt <? u64 (offset + sz) then u64 (nt - offset) else sz.
(** ReadSEGY.cc:212-229 *)
Definition readTrace (maxSize : Z) (sizes : list Z) (rd : reader) (offset sz : Z) (trc : option mem) (prm : option param) (skip : Z)
    (f : file) : option (option mem * option param) :=
  readTraceT maxSize sizes (r_format rd) (r_ns rd) (Range offset (clamp (r_nt rd) offset sz)) trc prm skip f.
(** ReadSEGY.cc:231-241 *)
Definition readTraceNonContiguous (maxSize : Z) (sizes : list Z) (rd : reader) (offs : list Z) (trc : option mem) (prm : option param) (skip : Z)
    (f : file) : option (option mem * option param) :=
  readTraceT maxSize sizes (r_format rd) (r_ns rd) (Listed offs) trc prm skip f.

(** ReadSEGY.cc:243-289.  [idx] is what getSortIndex returned (line 251): some
    permutation that orders the offsets; the others orders of equal offsets are
    equally possible.  [None] also stands for the access to idx[0] of an empty list
    (254) and for the dereferenced null parameter set (260). *)
Fixpoint nodup_from (prev : Z) (l : list Z) : list Z :=
  match l with [] => [] | x :: r => if x =? prev then nodup_from x r else x :: nodup_from x r end.
Fixpoint groups_from (prev n : Z) (l : list Z) : list Z :=
  match l with [] => [] | x :: r => let n' := if x =? prev then n else n + 1 in n' :: groups_from x n' r end.
Definition scatter_prm (sprm : param) (skip : Z) (js : list (nat * Z)) (p : param) : option param :=
  fold_left (fun op jn => obind op (cpyPrm true (snd jn) sprm (skip + Z.of_nat (fst jn)))) js (Some p).
Definition scatter_trc (ns : Z) (strc : mem) (js : list (nat * Z)) (trc : mem) : mem :=
  fold_left (fun m jn => copy_bytes m (4 * (Z.of_nat (fst jn) * ns)) strc (4 * (snd jn * ns)) (4 * ns)) js trc.
Definition readTraceNonMonotonic (maxSize : Z) (sizes : list Z) (rd : reader) (offs : list Z) (idx : list nat)
    (trc : option mem) (prm : option param) (skip : Z) (f : file) : option (option mem * option param) :=
  match map (fun j => nth j offs 0) idx, prm with
  | x0 :: xs, Some p =>
    let nodups := x0 :: nodup_from x0 xs in
    let js := List.combine idx (0 :: groups_from x0 0 xs) in
    let sprm := newParam (p_rule p) (Z.of_nat (length nodups)) in
    obind (readTraceT maxSize sizes (r_format rd) (r_ns rd) (Listed nodups)
             (option_map (fun _ => (fun _ => 0)) trc) (Some sprm) 0 f) (fun '(strc, osprm) =>
    obind osprm (fun sprm =>
    obind (scatter_prm sprm skip js p) (fun p =>
    Some (match trc, strc with
          | Some m, Some sm => Some (scatter_trc (r_ns rd) sm js m)
          | _, _ => trc
          end, Some p))))
  | _, _ => None
  end.
