(** Finding and distributing gathers.
    Models /repo/src/gather.cc (getGathers) and Set::startGather of
    /repo/src/Flow/Set.cc. *)
From Verif Require Import Base DecompModel.

(** Inline and crossline of a trace. *)
Definition key : Type := (Z * Z)%type.
Definition keqb (a b : key) : bool := (fst a =? fst b) && (snd a =? snd b).
(** Gather_info: number of traces, and inline and crossline.  Simplification: the
    number is not bounded by 2^64. *)
Definition info : Type := (nat * key)%type.
(** gather.cc:34-56: the runs of a rank's traces; [cur] is the key of the last
    entry pushed, [n] its count so far. *)
Fixpoint runs (cur : key) (n : nat) (l : list key) : list info :=
  match l with [] => [(n, cur)] | k :: r => if keqb k cur then runs cur (S n) r else (n, cur) :: runs k 1 r end.
(** A rank without traces reads entry 0 of an empty table: undefined. *)
Definition lline (l : list key) : option (list info) := match l with [] => None | k :: r => Some (runs k 1 r) end.
(** gather.cc:58-62; never used on an empty list. *)
Definition front (l : list info) : info := hd (0%nat, (0, 0)) l.
Definition back (l : list info) : info := last l (0%nat, (0, 0)).
(** gather.cc:70-77: what is added to the last entry, over the ranks that follow *)
Fixpoint grow (k : key) (fronts : list info) : nat :=
  match fronts with [] => O | (n, k') :: r => if keqb k k' then (n + grow k r)%nat else O end.
Definition add_last (l : list info) (n : nat) : list info := removelast l ++ [((fst (back l) + n)%nat, snd (back l))].
(** gather.cc:64-88 for rank r of p, [ll q] the runs of rank q.  [beyond] is what
    stands in memory behind the gathered keys, which the last rank reads (line 69).
    Simplification: the keys are compared as the signed numbers they are, the code
    compares both converted to size_t, which is injective on 64 bits. *)
Definition starts (ll : nat -> list info) (r : nat) : nat :=
  if negb (Nat.eqb r 0) && keqb (snd (back (ll (r - 1)%nat))) (snd (front (ll r))) then 1%nat else 0%nat.
Definition rank_gathers (beyond : key) (p : nat) (ll : nat -> list info) (r : nat) : list info :=
  let start := starts ll r in
  let next := if Nat.ltb (r + 1) p then snd (front (ll (r + 1)%nat)) else beyond in
  let l := if Nat.ltb start (length (ll r)) then
             if keqb next (snd (back (ll r))) then add_last (ll r) (grow (snd (back (ll r))) (map (fun q => front (ll q)) (seq (r + 1) (p - (r + 1))))) else ll r
           else ll r in
  skipn start l.
(** gather.cc:27-92 over all ranks: the contents of the distributed vector, rank r's
    entries being written at the offset of its share. *)
Definition gathers (beyond : key) (p : nat) (dat : nat -> list key) : option (list info) :=
  if existsb (fun r => match dat r with [] => true | _ => false end) (seq 0 p) then None
  else Some (flat_map (rank_gathers beyond p (fun r => match lline (dat r) with Some l => l | None => [] end)) (seq 0 p)).
(** Does the code stay inside the gathered arrays of p keys on rank r?  Line 69 reads
    entry r + 1 whenever start < lline.size(). *)
Definition reads_inside (p : nat) (ll : nat -> list info) (r : nat) : bool :=
  if Nat.ltb (starts ll r) (length (ll r)) then Nat.ltb (r + 1) p else true.

(** ---- Set::startGather ---- *)
(** Set.cc:303-315: the gathers rank r of p processes, with n gathers in all; the list
    is filled again for each of the [nops] gather operations of the chain. *)
Definition numGather (n p r : nat) : nat :=
  match block_decomposition (Z.of_nat n) (Z.of_nat p) (Z.of_nat r) with Some pc => Z.to_nat (local_size pc) | None => O end.
Definition gNums (nops n p r : nat) : list nat := concat (repeat (map (fun i => (i * p + r)%nat) (seq 0 (numGather n p r))) nops).
(** Set.cc:329-395: one round reads and writes one gather per rank; a rank that has
    none left takes part with nothing, for [extra] rounds (line 317). *)
Definition extra (n p r : nat) : nat := (fold_left Nat.max (map (numGather n p) (seq 0 p)) 0 - numGather n p r)%nat.
Definition rounds_of (nops n p r : nat) : nat := (length (gNums nops n p r) + extra n p r)%nat.
(** How many traces rank r reads in round i; [sizes] are the sizes of the gathers. *)
Definition iGSz (sizes : list nat) (nops p r i : nat) : nat :=
  match nth_error (gNums nops (length sizes) p r) i with Some g => nth g sizes 0%nat | None => 0%nat end.
Fixpoint nsum (l : list nat) : nat := match l with [] => O | x :: l => (x + nsum l)%nat end.
(** Where in the file rank r reads in round i: Set.cc:332-346, iOffset is advanced by
    the sum over the ranks in each round. *)
Definition read_pos (sizes : list nat) (nops p r i : nat) : nat :=
  (nsum (map (fun j => nsum (map (fun q => iGSz sizes nops p q j) (seq 0 p))) (seq 0 i)) + nsum (map (fun q => iGSz sizes nops p q i) (seq 0 r)))%nat.
