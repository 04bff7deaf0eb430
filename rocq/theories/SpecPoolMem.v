(** What a user of the insert pools and bucket caches relies on. *)
From Verif Require Import Model.Bytes Model.Err Model.Arena Model.PoolMem SpecArena.
From Coq Require Import Sorting.Sorted.

(** Calls on numbered pools and caches. *)
Inductive mop :=
| PInsert (i h : N) (k d : bytes) (at1 at2 : N) (room : bool)
| PFind (i : N) (k : bytes)
| PWalk (i : N)
| PSize (i : N)
| PClear (i : N)
| PSwap (i j : N)
| PPeriodic (i rate : N)
| CCreate (i n at_ : N) (room : bool)
| CInsert (i n : N) (d : bytes) (at_ : N) (room : bool)
| CFind (i n : N)
| CWrite (i n off : N) (d : bytes)
| CClear (i : N)
| CReserve (i n : N) (room : bool)
| CSwap (i j : N).

Section SPM.
Variables ks bs : N.

Definition mstep (o : mop) (s : mst) : mres :=
  match o with
  | PInsert i h k d a1 a2 room => mp_insert ks s i h k d a1 a2 room
  | PFind i k => mp_find ks s i k
  | PWalk i => mp_walk ks s i
  | PSize i => mp_size s i
  | PClear i => mp_clear s i
  | PSwap i j => mp_swap s i j
  | PPeriodic i r => mp_periodic s i r
  | CCreate i n a room => mc_create bs s i n a room
  | CInsert i n d a room => mc_insert bs s i n d a room
  | CFind i n => mc_find bs s i n
  | CWrite i n off d => mc_write s i n off d
  | CClear i => mc_clear s i
  | CReserve i n room => mc_reserve bs s i n room
  | CSwap i j => mc_swap s i j
  end.

(** Calls with arguments of the right sizes: keys of the key size, values that are not
    empty, no write beyond the end of a block, nothing near the limits of size_t. *)
Definition mop_sane (o : mop) : Prop :=
  match o with
  | PInsert _ _ k d _ _ _ => blen k = ks /\ 0 < blen d /\ size_sane (blen d)
  | PPeriodic _ r => size_sane r
  | CInsert _ _ d _ _ => blen d <= bs
  | CWrite _ _ off d => off + blen d <= bs
  | CReserve _ n _ => size_sane (n * bs)
  | _ => True
  end.

(** The calls are made one after the other.  A failed assertion ends the process. *)
Inductive reached (b : N -> N) : mst -> Prop :=
| reached_0 : reached b (mst0 b)
| reached_step s o s' a : reached b s -> mop_sane o -> mstep o s = Ok (s', a) -> a <> AAbort ->
    reached b s'.

(** What can be seen of the pools and caches: the pair a pool has for a key, and its
    size; the block a cache has for a bucket. *)
Definition sees_pair (s : mst) (i : N) (k : bytes) (r : option (N * bytes)) : Prop :=
  mstep (PFind i k) s = Ok (s, match r with None => AMiss | Some (h, d) => APair h d end).
Definition sees_size (s : mst) (i n : N) : Prop := mstep (PSize i) s = Ok (s, ANum n).
Definition sees_block (s : mst) (i n : N) (r : option bytes) : Prop :=
  mstep (CFind i n) s = Ok (s, match r with None => AMiss | Some d => ABlock d end).

(** [s'] shows in pool [i] for key [k] what [s] shows in pool [f i] for it, for the pairs
    for which [P] holds, and so on. *)
Definition pairs_from (f : N -> N) (P : N -> bytes -> Prop) (s s' : mst) : Prop :=
  forall i k r, P i k -> sees_pair s (f i) k r -> sees_pair s' i k r.
Definition sizes_from (f : N -> N) (P : N -> Prop) (s s' : mst) : Prop :=
  forall i n, P i -> sees_size s (f i) n -> sees_size s' i n.
Definition blocks_from (f : N -> N) (P : N -> N -> Prop) (s s' : mst) : Prop :=
  forall i n r, P i n -> sees_block s (f i) n r -> sees_block s' i n r.

Definition same (i : N) : N := i.
Definition exchange (i j k : N) : N := if k =? i then j else if k =? j then i else k.
Definition all1 {A} (_ : A) : Prop := True.
Definition all2 {A B} (_ : A) (_ : B) : Prop := True.

(** Nothing that can be seen changes. *)
Definition unchanged (s s' : mst) : Prop :=
  pairs_from same all2 s s' /\ sizes_from same all1 s s' /\ blocks_from same all2 s s'.

(** A key once. *)
Definition listed (l : list (bytes * (N * bytes))) (k : bytes) : option (N * bytes) :=
  match find (fun x => beq (fst x) k) l with Some x => Some (snd x) | None => None end.

(** What each call may answer, and what it does to what can be seen. *)
Definition effect (o : mop) (s : mst) (a : mans) (s' : mst) : Prop :=
  match o, a with
  | PInsert i h k d _ _ _, ADone =>
      sees_pair s i k None /\ sees_pair s' i k (Some (h, d)) /\
      pairs_from same (fun j q => j <> i \/ q <> k) s s' /\
      (forall n, sees_size s i n -> sees_size s' i (szt (n + blen d))) /\
      sizes_from same (fun j => j <> i) s s' /\ blocks_from same all2 s s'
  | PInsert _ _ _ _ _ _ _, AThrow => unchanged s s'
  | PInsert i _ k _ _ _ _, AAbort => exists h d, sees_pair s i k (Some (h, d))
  | PFind i k, AMiss => s' = s /\ sees_pair s i k None
  | PFind i k, APair h d => s' = s /\ sees_pair s i k (Some (h, d))
  | PWalk i, AList l =>
      s' = s /\ StronglySorted (fun x y => blt (fst x) (fst y) = true) l /\
      (forall k, blen k = ks -> sees_pair s i k (listed l k)) /\
      Forall (fun x => blen (fst x) = ks) l
  | PSize i, ANum n => s' = s /\ sees_size s i n
  | PClear i, ADone =>
      (forall k, sees_pair s' i k None) /\ sees_size s' i 0 /\
      pairs_from same (fun j _ => j <> i) s s' /\ sizes_from same (fun j => j <> i) s s' /\
      blocks_from same all2 s s'
  | PSwap i j, ADone =>
      pairs_from (exchange i j) all2 s s' /\ sizes_from (exchange i j) all1 s s' /\
      blocks_from same all2 s s'
  | PPeriodic _ _, ADone => unchanged s s'
  | CCreate i n _ _, ADone =>
      (sees_block s i n None -> sees_block s' i n (Some (zeros bs))) /\
      (forall d, sees_block s i n (Some d) -> sees_block s' i n (Some d)) /\
      pairs_from same all2 s s' /\ sizes_from same all1 s s' /\
      blocks_from same (fun j m => j <> i \/ m <> n) s s'
  | CCreate _ _ _ _, AThrow => unchanged s s'
  | CInsert i n d _ _, ADone =>
      (sees_block s i n None ->
         exists rest, blen (d ++ rest) = bs /\ sees_block s' i n (Some (d ++ rest))) /\
      (forall d, sees_block s i n (Some d) -> sees_block s' i n (Some d)) /\
      pairs_from same all2 s s' /\ sizes_from same all1 s s' /\
      blocks_from same (fun j m => j <> i \/ m <> n) s s'
  | CInsert _ _ _ _ _, AThrow => unchanged s s'
  | CFind i n, AMiss => s' = s /\ sees_block s i n None
  | CFind i n, ABlock d => s' = s /\ sees_block s i n (Some d) /\ blen d = bs
  | CWrite i n _ _, AMiss => s' = s /\ sees_block s i n None
  | CWrite i n off d, ADone =>
      (exists b, sees_block s i n (Some b) /\ sees_block s' i n (Some (bwrite off d b))) /\
      pairs_from same all2 s s' /\ sizes_from same all1 s s' /\
      blocks_from same (fun j m => j <> i \/ m <> n) s s'
  | CClear i, ADone =>
      (forall n, sees_block s' i n None) /\
      pairs_from same all2 s s' /\ sizes_from same all1 s s' /\
      blocks_from same (fun j _ => j <> i) s s'
  | CReserve _ _ _, (ADone | AThrow) => unchanged s s'
  | CSwap i j, ADone =>
      pairs_from same all2 s s' /\ sizes_from same all1 s s' /\
      blocks_from (exchange i j) all2 s s'
  | _, _ => False
  end.

(** Several calls, one after the other. *)
Inductive mruns : list mop -> mst -> mst -> Prop :=
| mruns_nil s : mruns [] s s
| mruns_cons o os s s' a s2 : mop_sane o -> mstep o s = Ok (s', a) -> a <> AAbort ->
    mruns os s' s2 -> mruns (o :: os) s s2.

(** The calls that may take a pair out of pool [i], and those that may change the block
    of bucket [n] in cache [i]. *)
Definition takes_pairs (i : N) (o : mop) : Prop :=
  match o with PClear j => j = i | PSwap j m => j = i \/ m = i | _ => False end.
Definition takes_block (i n : N) (o : mop) : Prop :=
  match o with
  | CClear j => j = i
  | CSwap j m => j = i \/ m = i
  | CWrite j m _ _ => j = i /\ m = n
  | _ => False
  end.
End SPM.
