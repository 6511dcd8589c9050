(** Model of src/Param.cc, include/ExSeisDat/PIOL/param_utils.hh, src/param_utils.cc
    and the metadata part of src/segy_utils.cc.
    Simplifications: the five vectors f, i, s, t, c of a Param are one family of
    arrays indexed by the kind of entry; index arithmetic is not wrapped (the
    indices are below the length of an allocated vector); the same Rule object
    (pointer equality) is a boolean argument of cpyPrm. *)
From Verif Require Import Base NumEncModel DataIOModel RuleModel DoubleModel.

(** Element of a vector: a double (f) or an integer (i, s, t, c). *)
Inductive value := VF (d : D) | VI (z : Z).
(** Param.h: f, i, s, t, c, r, sz. *)
Record param := mkParam { p_rule : rule; p_sz : Z; p_len : mdtype -> Z; p_at : mdtype -> Z -> value }.

(** Param.cc:12-21 *)
Definition zero_of (t : mdtype) : value := match t with MFloat => VF (d_of_Z 0) | _ => VI 0 end.
Definition newParam (r : rule) (sz : Z) : param :=
  mkParam r sz (fun t => match t with
                         | MCopy => sz * (if counts r MCopy =? 0 then 0 else 240)
                         | _ => sz * counts r t end)
          (fun t _ => zero_of t).

(** Access to an element; out of bounds is undefined ([None]). *)
Definition get_slot (p : param) (t : mdtype) (i : Z) : option value :=
  if (0 <=? i) && (i <? p_len p t) then Some (p_at p t i) else None.
Definition upd (f : mdtype -> Z -> value) (t : mdtype) (i : Z) (v : value) : mdtype -> Z -> value :=
  fun t' j => if mdtype_eqb t' t && (j =? i) then v else f t' j.
Definition set_slot (p : param) (t : mdtype) (i : Z) (v : value) : option param :=
  if (0 <=? i) && (i <? p_len p t) then Some (mkParam (p_rule p) (p_sz p) (p_len p) (upd (p_at p) t i v)) else None.
(** Element index of an entry of the given trace: r->numX * i + id->num. *)
Definition slot (r : rule) (i : Z) (e : entry) : Z := counts r (e_type e) * i + e_num e.

(** Conversion of an assigned value to the element type; a double that does not
    fit the integer type is undefined. *)
Definition range_opt (lo hi z : Z) : option value := if (lo <=? z) && (z <=? hi) then Some (VI z) else None.
Definition convert (t : mdtype) (v : value) : option value :=
  match t, v with
  | MFloat, VF d => Some (VF d)
  | MFloat, VI z => Some (VF (d_of_Z z))
  | MLong, VI z => Some (VI (s64 z))
  | MShort, VI z => Some (VI (s16 z))
  | MIndex, VI z => Some (VI (u64 z))
  | MLong, VF d => option_map VI (dtrunc d)
  | MShort, VF d => obind (dtrunc d) (range_opt (-32768) 32767)
  | MIndex, VF d => obind (dtrunc d) (range_opt 0 9223372036854775807)
  | MCopy, _ => None
  end.
(** param_utils.hh:28-52, getPrm (before the conversion to the caller's type). *)
Definition getPrm (i m : Z) (p : param) : option value :=
  match getEntry m (p_rule p) with
  | None => None
  | Some id => match e_type id with
               | MCopy => Some (VI 0)
               | t => get_slot p t (slot (p_rule p) i id)
               end
  end.
(** param_utils.hh:63-89, setPrm. *)
Definition setPrm (i m : Z) (v : value) (p : param) : option param :=
  match getEntry m (p_rule p) with
  | None => None
  | Some id => match e_type id with
               | MCopy => Some p
               | t => obind (convert t v) (fun v => set_slot p t (slot (p_rule p) i id) v)
               end
  end.

(** segy_utils.cc:205-219, parse_scalar *)
Definition parse_scalar (s : Z) : D :=
  let s := if s =? 0 then 1 else s in
  if 0 <? s then d_of_Z s else ddiv (d_of_Z 1) (d_of_Z (- s)).
(** segy_utils.cc:236-244: the first scale that lets the integer part fit. *)
Fixpoint big_scale (ip : Z) (l : list Z) : Z :=
  match l with
  | [] => 0
  | sc :: r => let v := Z.quot ip sc in if v =? s32 v then sc else big_scale ip r
  end.
(** segy_utils.cc:255-271: the loop over i = 1, 10, 100, 1000. *)
Fixpoint small_scale (val : D) (ip digits : Z) (l : list Z) : option Z :=
  match l with
  | [] => Some 1
  | i :: r =>
    if Z.rem digits (i * 10) =? 0 then small_scale val ip digits r else
    let sf := s16 (Z.quot (-10000) i) in
    obind (dlround (ddiv val (parse_scalar sf))) (fun q =>
    if Z.quot (s32 q) (- sf) =? ip then Some sf else small_scale val ip digits r)
  end.
(** segy_utils.cc:221-275, find_scalar.  [None]: NaN, infinite or beyond 64 bits. *)
Definition find_scalar (val : D) : option Z :=
  obind (dtrunc val) (fun ip =>
  if negb (ip =? s32 ip) then Some (s16 (big_scale ip [10; 100; 1000; 10000]))
  else obind (dlround (dmul val (d_of_Z 10000))) (fun lr =>
       let digits := lr - ip * 10000 in
       if digits =? 0 then Some 1 else small_scale val ip digits [1; 10; 100; 1000])).
(** segy_utils.cc:67-78: combination with the scale found so far. *)
Definition combine (scal1 scal2 : Z) : Z := if (1 <? scal1) || (1 <? scal2) then Z.max scal1 scal2 else Z.min scal1 scal2.

(** std::copy of bytes to a buffer. *)
Definition put (m : mem) (w : Z * list Z) : mem :=
  fun x => if (fst w <=? x) && (x <? fst w + Z.of_nat (length (snd w))) then nth (Z.to_nat (x - fst w)) (snd w) 0 else m x.
Definition apply_writes (ws : list (Z * list Z)) (m : mem) : mem := fold_left put ws m.

(** The value of an entry in trace tr. *)
Definition val_of (p : param) (tr : Z) (e : entry) : option value := get_slot p (e_type e) (slot (p_rule p) tr e).
Definition int_of (v : value) : Z := match v with VI z => z | VF _ => 0 end.
Definition dbl_of (v : value) : D := match v with VF d => d | VI z => d_of_Z z end.

(** segy_utils.cc:81-103: the integer entries, written while looping.  The field
    offset loc - start - 1 is a size_t; added to the pointer it is the plain
    difference. *)
Definition int_write (p : param) (tr start base : Z) (e : entry) : option (list (Z * list Z)) :=
  match e_type e with
  | MShort => obind (val_of p tr e) (fun v => Some [(base + (e_loc e - start - 1), to_big_endian 2 (int_of v))])
  | MLong => obind (val_of p tr e) (fun v => Some [(base + (e_loc e - start - 1), to_big_endian 4 (s32 (int_of v)))])
  | _ => Some []
  end.
(** segy_utils.cc:52-79: the map of scale factors, as an association list. *)
Fixpoint sc_get (l : list (Z * Z)) (tr : Z) : option Z :=
  match l with [] => None | (k, s) :: r => if k =? tr then Some s else sc_get r tr end.
Definition sc_set (l : list (Z * Z)) (tr s : Z) : list (Z * Z) := (tr, s) :: filter (fun x => negb (fst x =? tr)) l.
Definition scal_step (p : param) (tr : Z) (osc : option (list (Z * Z))) (e : entry) : option (list (Z * Z)) :=
  match e_type e with
  | MFloat =>
    obind osc (fun sc => obind (val_of p tr e) (fun v => obind (find_scalar (dbl_of v)) (fun s2 =>
    let s1 := match sc_get sc (e_scal e) with Some s => s | None => 1 end in
    Some (sc_set sc (e_scal e) (combine s1 s2)))))
  | _ => osc
  end.
(** segy_utils.cc:114-123: the scaled integers. *)
Definition float_write (p : param) (tr start base : Z) (sc : list (Z * Z)) (e : entry) : option (list (Z * list Z)) :=
  match e_type e with
  | MFloat =>
    obind (val_of p tr e) (fun v => obind (sc_get sc (e_scal e)) (fun s =>
    obind (dlround (ddiv (dbl_of v) (parse_scalar s))) (fun q =>
    Some [(base + (e_loc e - start - 1), to_big_endian 4 (s32 q))])))
  | _ => Some []
  end.
(** segy_utils.cc:106-112 *)
Definition scale_write (start base : Z) (x : Z * Z) : Z * list Z := (base + (fst x - start - 1), to_big_endian 2 (snd x)).
(** segy_utils.cc:42-124, one trace: all its writes in order. *)
Definition trace_writes (p : param) (tr start base : Z) : option (list (Z * list Z)) :=
  let es := map snd (translate (p_rule p)) in
  obind (omap (int_write p tr start base) es) (fun iw =>
  obind (fold_left (scal_step p tr) es (Some [])) (fun sc =>
  obind (omap (float_write p tr start base sc) es) (fun fw =>
  Some (concat iw ++ map (scale_write start base) sc ++ concat fw)))).

(** segy_utils.cc:26-40: the copied header of trace tr.  (With stride 0 the code
    copies all traces at once, which is the same bytes.) *)
Definition copy_write (p : param) (tr base : Z) : option (list (Z * list Z)) :=
  if counts (p_rule p) MCopy =? 0 then Some [] else
  if (0 <=? tr * 240) && ((tr + 1) * 240 <=? p_len p MCopy)
  then Some [(base, map (fun k => int_of (p_at p MCopy (tr * 240 + k))) (zrange 240))] else None.
(** segy_utils.cc:16-125, insertParam into the buffer [buf] (address 0).  The
    start is taken before the extent is brought up to date (24). *)
Definition insertParam (sz : Z) (p : param) (buf : mem) (stride skip : Z) : option mem :=
  let start := r_start (p_rule p) in
  let ext := fst (extent (p_rule p)) in
  let idx := zrange (Z.to_nat sz) in
  obind (omap (fun i => copy_write p (i + skip) (i * (stride + 240))) idx) (fun cws =>
  obind (omap (fun i => trace_writes p (i + skip) start ((ext + stride) * i)) idx) (fun tws =>
  Some (apply_writes (concat cws ++ concat tws) buf))).

(** from_big_endian at an address of the buffer. *)
Definition rd16 (m : mem) (a : Z) : Z := from_be_int16 (m a) (m (a + 1)).
Definition rd32 (m : mem) (a : Z) : Z := from_be_int32 (m a) (m (a + 1)) (m (a + 2)) (m (a + 3)).
(** segy_utils.cc:155-200: the value of an entry in a header at [base]. *)
Definition decode (m : mem) (start base : Z) (e : entry) : option value :=
  let loc := base + (e_loc e - start - 1) in
  match e_type e with
  | MFloat => Some (VF (dmul (parse_scalar (rd16 m (base + (e_scal e - start - 1)))) (d_of_Z (rd32 m loc))))
  | MShort => Some (VI (rd16 m loc))
  | MLong => Some (VI (rd32 m loc))
  | _ => None
  end.
Definition extract_entry (m : mem) (start base tr : Z) (op : option param) (e : entry) : option param :=
  obind op (fun p =>
  match decode m start base e with
  | Some v => set_slot p (e_type e) (slot (p_rule p) tr e) v
  | None => Some p
  end).
(** segy_utils.cc:136-149 *)
Definition copy_in (m : mem) (base tr : Z) (p : param) : option param :=
  if (0 <=? tr * 240) && ((tr + 1) * 240 <=? p_len p MCopy)
  then Some (mkParam (p_rule p) (p_sz p) (p_len p)
         (fun t j => if mdtype_eqb t MCopy && ((tr * 240 <=? j) && (j <? tr * 240 + 240))
                     then VI (m (base + (j - tr * 240))) else p_at p t j)) else None.
(** segy_utils.cc:127-203, extractParam from the buffer at address b0.  The cached
    extent of the rule is updated by the call. *)
Definition extractParam (sz : Z) (m : mem) (b0 : Z) (p : param) (stride skip : Z) : option param :=
  if sz =? 0 then Some p else
  let idx := zrange (Z.to_nat sz) in
  obind (if counts (p_rule p) MCopy =? 0 then Some p
         else fold_left (fun op i => obind op (copy_in m (b0 + i * (stride + 240)) (i + skip))) idx (Some p)) (fun p =>
  let '(ext, r) := extent (p_rule p) in
  let p := mkParam r (p_sz p) (p_len p) (p_at p) in
  fold_left (fun op i =>
     fold_left (extract_entry m (r_start r) (b0 + (ext + stride) * i) (i + skip)) (map snd (translate r)) op) idx (Some p)).

(** param_utils.cc:30-47: both parameter sets share the Rule object. *)
Definition copy_kind (src : param) (j k : Z) (op : option param) (t : mdtype) : option param :=
  fold_left (fun op i => obind op (fun dst =>
    obind (get_slot src t (j * counts (p_rule src) t + i)) (fun v =>
    set_slot dst t (k * counts (p_rule src) t + i) v))) (zrange (Z.to_nat (counts (p_rule src) t))) op.
(** param_utils.cc:48-88: two Rule objects. *)
Definition copy_entry (src : param) (j k : Z) (op : option param) (x : Z * entry) : option param :=
  obind op (fun dst =>
  match lookup (fst x) (translate (p_rule dst)) with
  | Some dent =>
    let sent := snd x in
    if mdtype_eqb (e_type dent) (e_type sent) then
      match e_type sent with
      | MCopy => Some dst
      | t => obind (get_slot src t (slot (p_rule src) j sent)) (fun v => set_slot dst t (slot (p_rule dst) k dent) v)
      end
    else Some dst
  | None => Some dst
  end).
(** param_utils.cc:13-88, cpyPrm (for pointers that are not null). *)
Definition cpyPrm (same : bool) (j : Z) (src : param) (k : Z) (dst : param) : option param :=
  obind (if counts (p_rule src) MCopy =? 0 then Some dst
         else extractParam 1 (fun a => int_of (p_at src MCopy a)) (j * 240) dst 0 k) (fun dst =>
  if same then fold_left (copy_kind src j k) [MFloat; MLong; MShort; MIndex] (Some dst)
  else fold_left (copy_entry src j k) (translate (p_rule src)) (Some dst)).
