(** An open store used by any number of threads at once, with the flush in the background:
    the locking in include/nudb/impl/basic_store.ipp and include/nudb/detail/gentex.hpp.

    One transition is one operation on a file, or one piece of code that runs while holding
    locks and does no such operation.  That reading and writing files can be treated as
    atomic is justified by theorem C25_no_race.  The flush of a store is run by one thread
    at a time (theorem C26_one_list; close(), which flushes too, must not overlap with other
    calls).  Left out: failing operations (which are in ConcFail.v), the
    rate limiter, condition variables (a thread that waits is a thread that cannot make
    a transition), and any preference m_ gives to threads that want it exclusively (here a
    thread gets it shared whenever nobody owns it exclusively). *)
From Verif Require Import Model.Bytes Model.Err Model.Field Model.Format Model.IO Model.BulkIO
  Model.Bucket Model.Pool Model.Recover Model.Store Model.Create Spec SpecLin Model.History.

(** class gentex_t: include/nudb/detail/gentex.hpp:20-48. *)
Record gentex := Gentex { g_gen : N; g_cur : N; g_prev : N }.

(** start(): include/nudb/detail/gentex.hpp:50-59. *)
Definition g_start (g : gentex) : gentex := Gentex (g_gen g + 1) 0 (g_prev g + g_cur g).

(** finish() returns: include/nudb/detail/gentex.hpp:61-69. *)
Definition g_finished (g : gentex) : bool := g_prev g =? 0.

(** lock_gen(): include/nudb/detail/gentex.hpp:71-80.  Its result is [g_gen g]. *)
Definition g_lock (g : gentex) : gentex := Gentex (g_gen g) (g_cur g + 1) (g_prev g).

(** unlock_gen(gen): include/nudb/detail/gentex.hpp:82-98.
    Taken and given back by genlock: gentex.hpp:187-234. *)
Definition g_unlock (g : gentex) (gen : N) : gentex :=
  if gen =? g_gen g then Gentex (g_gen g) (g_cur g - 1) (g_prev g)
  else Gentex (g_gen g) (g_cur g) (g_prev g - 1).

(** Where a thread is (lines of include/nudb/impl/basic_store.ipp), and which locks it
    holds: m_ shared, u_, or a generation [g] of g_. *)
Inductive cth :=
| CIdle
| CFetch (k : bytes)                                   (* fetch, before line 238 *)
| CFetchC (n : N) (b : bytes) (p : prog (res bytes))   (* fetch, line 254: m_; bucket n of c1 is b *)
| CFetchK (n g : N) (p : prog (res bytes))             (* fetch, lines 257-263: g; bucket n of the key file *)
| CInsert (k v : bytes)                                (* insert, before line 288 *)
| CInsLocked (k v : bytes)                             (* insert, before line 290: u_ *)
| CInsC (k v : bytes) (n : N) (b : bytes) (p : prog (res bool)) (* exists, first bucket, from line 301: u_, m_ *)
| CInsD (k v : bytes) (p : prog (res bool))            (* exists, after line 445: u_ *)
| CInsK (k v : bytes) (n g : N) (p : prog (res bool))  (* insert, lines 317-331: u_, g *)
| CInsGo (k v : bytes)                                 (* insert, before line 335: u_ *)
| CRet (o : out).                                      (* about to return *)

(** Where the flush is. *)
Inductive fls :=
| FlIdle                           (* not in flush() *)
| FlData (p : prog (res cstate))   (* commit, lines 604-690 *)
| FlLog (p : prog (res unit))      (* commit, lines 702-727 *)
| FlWait                           (* commit, line 728: g_.finish() *)
| FlKey (p : prog (res unit)).     (* commit, lines 729-749 *)

(** The files, the members of the store, the locks (number of shared owners of m_; whether
    u_ is owned; g_) and the threads.  m_ is owned exclusively only within a transition. *)
Record xst := XSt {
  x_w : world; x_s : store; x_m : N; x_u : bool; x_g : gentex; x_th : N -> cth; x_fl : fls }.

(** A store just opened, or used by a single thread until now. *)
Definition xinit (s : store) (w : world) : xst := XSt w s 0 false (Gentex 0 0 0) (fun _ => CIdle) FlIdle.

Definition tset (f : N -> cth) (t : N) (s : cth) : N -> cth := fun u => if u =? t then s else f u.

Definition goto (x : xst) (t : N) (s : cth) : xst :=
  XSt (x_w x) (x_s x) (x_m x) (x_u x) (x_g x) (tset (x_th x) t s) (x_fl x).
Definition set_w (x : xst) (w : world) : xst :=
  XSt w (x_s x) (x_m x) (x_u x) (x_g x) (x_th x) (x_fl x).
Definition set_s (x : xst) (s : store) : xst :=
  XSt (x_w x) s (x_m x) (x_u x) (x_g x) (x_th x) (x_fl x).
Definition set_m (x : xst) (m : N) : xst :=
  XSt (x_w x) (x_s x) m (x_u x) (x_g x) (x_th x) (x_fl x).
Definition set_u (x : xst) (u : bool) : xst :=
  XSt (x_w x) (x_s x) (x_m x) u (x_g x) (x_th x) (x_fl x).
Definition set_g (x : xst) (g : gentex) : xst :=
  XSt (x_w x) (x_s x) (x_m x) (x_u x) g (x_th x) (x_fl x).
Definition set_fl (x : xst) (f : fls) : xst :=
  XSt (x_w x) (x_s x) (x_m x) (x_u x) (x_g x) (x_th x) f.

(** Changes of the members of the store: basic_store.ipp:336, 589, 696-699, 754.  (frac_ is
    changed earlier, at 656-659; only the flush looks at it.) *)
Definition with_p1 (s : store) (p : pool) : store :=
  Store (st_kh s) (st_p0 s) p (st_c1 s) (st_frac s) (st_thresh s) (st_buckets s) (st_modulus s) (st_ec s).
Definition swap_pools (s : store) : store :=
  Store (st_kh s) (st_p1 s) (st_p0 s) (st_c1 s) (st_frac s) (st_thresh s) (st_buckets s) (st_modulus s) (st_ec s).
Definition publish (s : store) (st : cstate) : store :=
  Store (st_kh s) pool_empty (st_p1 s) (cs_c1 st) (cs_frac st) (st_thresh s) (cs_buckets st) (cs_modulus st) (st_ec s).
Definition clear_c1 (s : store) : store :=
  Store (st_kh s) (st_p0 s) (st_p1 s) [] (st_frac s) (st_thresh s) (st_buckets s) (st_modulus s) (st_ec s).

(** fetch() while it holds m_: include/nudb/impl/basic_store.ipp:238-256.  (Between line
    238 and 256 nothing that is read here can change, because m_ is held.) *)
Definition fetch_section (e : env) (x : xst) (t : N) (k : bytes) : xst :=
  let s := x_s x in
  let kh := st_kh s in
  let h := hash (e_hasher e) (kh_salt kh) k in
  match pool_find (st_p1 s) k with
  | Some y => goto x t (CRet (OFound (pe_data y)))
  | None =>
    match pool_find (st_p0 s) k with
    | Some y => goto x t (CRet (OFound (pe_data y)))
    | None =>
      let n := bucket_index h (st_buckets s) (st_modulus s) in
      match cache_find (st_c1 s) n with
      | Some b => goto (set_m x (x_m x + 1)) t (CFetchC n b (fetch_bucket e kh h k (bk_of_blob b)))
      | None =>
        goto (set_g x (g_lock (x_g x))) t (CFetchK n (g_gen (x_g x))
          (b <- bk_read (fresh e (kh_block_size kh)) FKey ((n + 1) * kh_block_size kh) ;;
           fetch_bucket e kh h k b))
      end
    end
  end.

(** exists() after it has unlocked m_, [b] being the first bucket:
    include/nudb/impl/basic_store.ipp:446-453. *)
Definition exists_rest (e : env) (kh : key_header) (h : N) (k : bytes) (b : bucket) : prog (res bool) :=
  if bk_spill b =? 0 then pret false
  else
    b' <- bk_read (fresh e (kh_block_size kh)) FDat (bk_spill b) ;;
    exists_bucket e kh h k b'.

(** insert() while it holds m_: include/nudb/impl/basic_store.ipp:290-316, with the first
    bucket of exists(), 427-442. *)
Definition insert_section (e : env) (x : xst) (t : N) (k v : bytes) : xst :=
  let s := x_s x in
  let kh := st_kh s in
  let h := hash (e_hasher e) (kh_salt kh) k in
  match pool_find (st_p1 s) k, pool_find (st_p0 s) k with
  | None, None =>
    let n := bucket_index h (st_buckets s) (st_modulus s) in
    match cache_find (st_c1 s) n with
    | Some b =>
      let i := bk_lower_bound (bk_of_blob b) h in
      goto (set_m x (x_m x + 1)) t (CInsC k v n b
        (exists_scan (N.to_nat (bk_size (bk_of_blob b) - i)) (kh_key_size kh) h k (bk_of_blob b) i))
    | None =>
      goto (set_g x (g_lock (x_g x))) t (CInsK k v n (g_gen (x_g x))
        (b <- bk_read (fresh e (kh_block_size kh)) FKey ((n + 1) * kh_block_size kh) ;;
         exists_bucket e kh h k b))
    end
  | _, _ => goto (set_u x false) t (CRet OKeyExists)
  end.

(** What insert() returns when exists() fails with an error or finds the key. *)
Definition found_out (r : res bool) : out :=
  match r with Ok _ => OKeyExists | Er er => insert_out (Er er) end.

(** The next transition of thread [t]: what is seen of it, and the new state; [None] when
    it has to wait. *)
Definition thread_step (e : env) (x : xst) (t : N) : option (list hev * xst) :=
  let s := x_s x in
  let kh := st_kh s in
  match x_th x t with
  | CIdle => None
  | CFetch k => Some ([], fetch_section e x t k)
  | CFetchC n b (Do o c) =>
    let (w, r) := exec o (x_w x) in Some ([], goto (set_w x w) t (CFetchC n b (c r)))
  | CFetchC n b (Ret r) => Some ([], goto (set_m x (x_m x - 1)) t (CRet (fetch_out r)))
  | CFetchK n g (Do o c) =>
    let (w, r) := exec o (x_w x) in Some ([], goto (set_w x w) t (CFetchK n g (c r)))
  | CFetchK n g (Ret r) => Some ([], goto (set_g x (g_unlock (x_g x) g)) t (CRet (fetch_out r)))
  | CInsert k v => if x_u x then None else Some ([], goto (set_u x true) t (CInsLocked k v))
  | CInsLocked k v => Some ([], insert_section e x t k v)
  | CInsC k v n b (Do o c) =>
    let (w, r) := exec o (x_w x) in Some ([], goto (set_w x w) t (CInsC k v n b (c r)))
  | CInsC k v n b (Ret (Ok false)) =>
    let h := hash (e_hasher e) (kh_salt kh) k in
    Some ([], goto (set_m x (x_m x - 1)) t (CInsD k v (exists_rest e kh h k (bk_of_blob b))))
  | CInsC k v n b (Ret r) => Some ([], goto (set_u (set_m x (x_m x - 1)) false) t (CRet (found_out r)))
  | CInsD k v (Do o c) =>
    let (w, r) := exec o (x_w x) in Some ([], goto (set_w x w) t (CInsD k v (c r)))
  | CInsD k v (Ret (Ok false)) => Some ([], goto x t (CInsGo k v))
  | CInsD k v (Ret r) => Some ([], goto (set_u x false) t (CRet (found_out r)))
  | CInsK k v n g (Do o c) =>
    let (w, r) := exec o (x_w x) in Some ([], goto (set_w x w) t (CInsK k v n g (c r)))
  | CInsK k v n g (Ret (Ok false)) => Some ([], goto (set_g x (g_unlock (x_g x) g)) t (CInsGo k v))
  | CInsK k v n g (Ret r) =>
    Some ([], goto (set_u (set_g x (g_unlock (x_g x) g)) false) t (CRet (found_out r)))
  | CInsGo k v =>                                   (* 335-346; needs m_ exclusively *)
    if x_m x =? 0 then
      let h := hash (e_hasher e) (kh_salt kh) k in
      Some ([], goto (set_u (set_s x (with_p1 s (pool_insert (st_p1 s) h k v))) false) t (CRet OInserted))
    else None
  | CRet o => Some ([HRet t o], goto x t CIdle)
  end.

(** The next transition of the flush: flush() and commit(),
    include/nudb/impl/basic_store.ipp:757-804 and 580-755.  [None] when it has to wait, or
    when a program has failed. *)
Definition flush_step (e : env) (x : xst) : option xst :=
  let s := x_s x in
  let kh := st_kh s in
  match x_fl x with
  | FlIdle =>                                       (* 769-771, 589; needs m_ exclusively *)
    if x_m x =? 0 then
      if pool_is_empty (st_p1 s) then Some x
      else Some (set_fl (set_s x (swap_pools s))
             (FlData (commit_begin e kh ;;;
                      commit_data e kh (st_thresh s) (st_frac s) (st_buckets s) (st_modulus s) (pl_map (st_p1 s)))))
    else None
  | FlData (Do o c) => let (w, r) := exec o (x_w x) in Some (set_fl (set_w x w) (FlData (c r)))
  | FlData (Ret (Ok st)) =>                         (* 692-701; needs m_ exclusively *)
    if x_m x =? 0 then
      Some (set_fl (set_g (set_s x (publish s st)) (g_start (x_g x))) (FlLog (commit_log e (cs_c0 st))))
    else None
  | FlData (Ret (Er _)) => None
  | FlLog (Do o c) => let (w, r) := exec o (x_w x) in Some (set_fl (set_w x w) (FlLog (c r)))
  | FlLog (Ret (Ok _)) => Some (set_fl x FlWait)
  | FlLog (Ret (Er _)) => None
  | FlWait =>
    if g_finished (x_g x) then
      Some (set_fl x (FlKey (commit_key (kh_block_size kh) (e_iter e (st_c1 s)) ;;; commit_end)))
    else None
  | FlKey (Do o c) => let (w, r) := exec o (x_w x) in Some (set_fl (set_w x w) (FlKey (c r)))
  | FlKey (Ret (Ok _)) =>                           (* 753-755; needs m_ exclusively *)
    if x_m x =? 0 then Some (set_fl (set_s x (clear_c1 s)) FlIdle) else None
  | FlKey (Ret (Er _)) => None
  end.

(** Calls that threads make: fetch and insert, with valid arguments. *)
Definition call_state (c : op) : option cth :=
  match c with
  | OpFetch k => Some (CFetch k)
  | OpInsert k v => Some (CInsert k v)
  | OpFlush | OpReopen => None
  end.

(** Transitions: a thread makes a call; a thread goes on; the flush goes on. *)
Inductive xstep (e : env) (x : xst) : list hev -> xst -> Prop :=
| xs_call t c s :
    x_th x t = CIdle -> valid_op (kh_key_size (st_kh (x_s x))) c -> call_state c = Some s ->
    xstep e x [HCall t c] (goto x t s)
| xs_thread t h x' : thread_step e x t = Some (h, x') -> xstep e x h x'
| xs_flush x' : flush_step e x = Some x' -> xstep e x [] x'.

(** Executions, and what is seen of them. *)
Inductive xexec (e : env) : xst -> list hev -> xst -> Prop :=
| xe_nil x : xexec e x [] x
| xe_step x h x1 h' x2 : xexec e x h x1 -> xstep e x1 h' x2 -> xexec e x (h ++ h') x2.

(** A database that has been used by one thread, with history [l], is then used by several;
    [h] is seen of that, and it has got to state [x]. *)
Definition concurrent (e : env) (a : create_args) (l : list op) (h : list hev) (x : xst) : Prop :=
  exists w s, lived e a l w s /\ xexec e (xinit s w) h x.

(** ** What threads and the flush are doing *)
Definition next_op {A} (p : prog A) : option io := match p with Do o _ => Some o | Ret _ => None end.

(** The file operation a thread is about to make. *)
Definition thread_io (c : cth) : option io :=
  match c with
  | CFetchC _ _ p => next_op p
  | CFetchK _ _ p => next_op p
  | CInsC _ _ _ _ p => next_op p
  | CInsD _ _ p => next_op p
  | CInsK _ _ _ _ p => next_op p
  | _ => None
  end.

(** The file operation the flush is about to make. *)
Definition flush_io (f : fls) : option io :=
  match f with
  | FlData p => next_op p
  | FlLog p => next_op p
  | FlKey p => next_op p
  | FlIdle | FlWait => None
  end.

(** The bucket of the key file a thread has decided to read, and the generation it has
    locked for that. *)
Definition hold (c : cth) : option (N * N) :=
  match c with CFetchK n g _ | CInsK _ _ n g _ => Some (n, g) | _ => None end.

(** The bucket in the new buckets (c1_) a thread is using. *)
Definition uses (c : cth) : option (N * bytes) :=
  match c with CFetchC n b _ | CInsC _ _ n b _ => Some (n, b) | _ => None end.

(** Doing [a] and [b] at the same time: one changes bytes of a file that the other reads
    or changes. *)
Definition touches (f : fname) (i : N) (o : io) : Prop :=
  match o with
  | IoRead f' off len => f' = f /\ off <= i < off + len
  | IoWrite f' _ off d => f' = f /\ off <= i < off + blen d
  | IoErase f' | IoCreate f' | IoTrunc f' _ => f' = f
  | IoOpen _ | IoSize _ | IoSync _ => False
  end.
Definition changes (o : io) : bool :=
  match o with IoErase _ | IoCreate _ | IoTrunc _ _ | IoWrite _ _ _ _ => true | _ => false end.
Definition conflict (a b : io) : Prop :=
  (changes a || changes b) = true /\ exists f i, touches f i a /\ touches f i b.
