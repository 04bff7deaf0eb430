(** The background scheduler: include/nudb/impl/context.ipp, include/nudb/context.hpp,
    include/nudb/detail/store_base.hpp.

    Everything the context does with its lists happens while m_ is locked, except for
    store->flush(), so a transition of the model is a whole critical section.  Waiting on
    a condition variable is a state of the waiting thread, which carries whether it has
    been notified since.  Left out: times (wait_until may time out at any moment), the
    wrap-around of num_threads_ after 2^32 threads, and what store->flush() does (see
    Store.v and Concurrent.v).  Stores are named by numbers (their addresses). *)
From Verif Require Import Model.Bytes.

(** enum class state, next_, prev_, state_: include/nudb/detail/store_base.hpp:31-42. *)
Inductive sstate := SWaiting | SFlushing | SIntermediate | SNone.
Record node := Node { nx : option N; pv : option N; stt : sstate }.
Definition heap := N -> node.
Definition upd {A} (f : N -> A) (x : N) (a : A) : N -> A := fun y => if y =? x then a else f y.
Definition set_nx (h : heap) (x : N) (n : option N) : heap := upd h x (Node n (pv (h x)) (stt (h x))).
Definition set_pv (h : heap) (x : N) (p : option N) : heap := upd h x (Node (nx (h x)) p (stt (h x))).
Definition set_stt (h : heap) (x : N) (s : sstate) : heap := upd h x (Node (nx (h x)) (pv (h x)) s).

(** class list: include/nudb/context.hpp:113-140. *)
Record dlist := DList { dl_head : option N; dl_tail : option N }.
Definition dnil : dlist := DList None None.

(** push_back: include/nudb/impl/context.ipp:215-226. *)
Definition push_back (h : heap) (l : dlist) (x : N) : heap * dlist :=
  let h := set_pv (set_nx h x None) x (dl_tail l) in
  let h := match dl_tail l with Some t => set_nx h t (Some x) | None => h end in
  (h, DList (match dl_head l with None => Some x | Some y => Some y end) (Some x)).

(** erase: include/nudb/impl/context.ipp:228-244. *)
Definition dl_erase (h : heap) (l : dlist) (x : N) : heap * dlist :=
  let '(h, l) := match nx (h x) with
    | Some n => (set_pv h n (pv (h x)), l)
    | None => (h, DList (dl_head l) (pv (h x)))
    end in
  let '(h, l) := match pv (h x) with
    | Some p => (set_nx h p (nx (h x)), l)
    | None => (h, DList (nx (h x)) (dl_tail l))
    end in
  (set_pv (set_nx h x None) x None, l).

(** splice: include/nudb/impl/context.ipp:246-265.  The heap, this list and the right one. *)
Definition splice (h : heap) (l r : dlist) : heap * dlist * dlist :=
  match dl_head r with
  | None => (h, l, r)
  | Some rh =>
    match dl_head l with
    | None => (h, r, dnil)
    | Some _ =>
      let h := set_pv h rh (dl_tail l) in
      let h := match dl_tail l with Some t => set_nx h t (dl_head r) | None => h end in
      (h, DList (dl_head l) (dl_tail r), dnil)
    end
  end.

(** The loop that marks the stores of waiting_ before they are spliced:
    include/nudb/impl/context.ipp:82-84,133-135.  [None]: more than [fuel] stores. *)
Fixpoint mark (fuel : nat) (h : heap) (p : option N) : option heap :=
  match p with
  | None => Some h
  | Some x =>
    match fuel with
    | O => None
    | S fuel' => mark fuel' (set_stt h x SFlushing) (nx (h x))
    end
  end.

(** Where a thread is. *)
Inductive tstate :=
| TIdle                            (* in no function of the context *)
| TStart                           (* start() *)
| TRun                             (* run(), before line 63 *)
| TTop (first : bool)              (* run(), before line 71 *)
| TWaitF (first woken : bool)      (* run(), waiting on cv_f_, lines 76 and 101 *)
| TLoop (r : option bool)          (* before a call of flush_one: from run() with [first], or from flush() *)
| TBusy (r : option bool) (x : N)  (* in flush_one, store->flush() of store x *)
| TLeave                           (* run(), before line 117 *)
| TFlush                           (* flush(), before its lock *)
| TOpen (x : N)                    (* basic_store::open of x, before ctx_->insert *)
| TClose (x : N)                   (* basic_store::close of x, before ctx_->erase *)
| TWaitX (x : N) (woken : bool)    (* erase(), waiting on cv_w_, line 171 *)
| TStop                            (* stop_all(), before its lock *)
| TWaitS (woken : bool)            (* stop_all(), waiting on cv_w_, line 43 *)
| TJoin (k : N)                    (* stop_all(), joining thread k *)
| TJoined.                         (* stop_all(), before locking again *)

(** The context, its threads, and for each store whether it is open (open_,
    include/nudb/basic_store.hpp). *)
Record ctx := Ctx {
  c_heap : heap; c_waiting : dlist; c_flushing : dlist;
  c_num : N; c_t : option N; c_stop : bool;
  c_th : N -> tstate; c_open : N -> bool }.

Definition node0 : node := Node None None SNone.
Definition ctx0 : ctx := Ctx (fun _ => node0) dnil dnil 0 None false (fun _ => TIdle) (fun _ => false).

(** notify_all on cv_f_ and on cv_w_. *)
Definition wake_f (th : N -> tstate) : N -> tstate := fun t =>
  match th t with TWaitF f _ => TWaitF f true | s => s end.
Definition wake_w (th : N -> tstate) : N -> tstate := fun t =>
  match th t with TWaitX x _ => TWaitX x true | TWaitS _ => TWaitS true | s => s end.

Definition goto (c : ctx) (t : N) (s : tstate) : ctx :=
  Ctx (c_heap c) (c_waiting c) (c_flushing c) (c_num c) (c_t c) (c_stop c) (upd (c_th c) t s) (c_open c).
Definition set_lists (c : ctx) (h : heap) (w f : dlist) : ctx :=
  Ctx h w f (c_num c) (c_t c) (c_stop c) (c_th c) (c_open c).
Definition wakes (c : ctx) (wake : (N -> tstate) -> N -> tstate) : ctx :=
  Ctx (c_heap c) (c_waiting c) (c_flushing c) (c_num c) (c_t c) (c_stop c) (wake (c_th c)) (c_open c).
Definition set_num (c : ctx) (n : N) : ctx :=
  Ctx (c_heap c) (c_waiting c) (c_flushing c) n (c_t c) (c_stop c) (c_th c) (c_open c).
Definition set_t (c : ctx) (k : option N) : ctx :=
  Ctx (c_heap c) (c_waiting c) (c_flushing c) (c_num c) k (c_stop c) (c_th c) (c_open c).
Definition set_stop (c : ctx) (b : bool) : ctx :=
  Ctx (c_heap c) (c_waiting c) (c_flushing c) (c_num c) (c_t c) b (c_th c) (c_open c).
Definition set_open (c : ctx) (x : N) (b : bool) : ctx :=
  Ctx (c_heap c) (c_waiting c) (c_flushing c) (c_num c) (c_t c) (c_stop c) (c_th c) (upd (c_open c) x b).

Definition empty (l : dlist) : bool := match dl_head l with None => true | Some _ => false end.

(** Moving everything in waiting_ to flushing_: include/nudb/impl/context.ipp:79-86 and
    132-136 (run() tests waiting_.empty() first; splice does nothing then either). *)
Definition move_all (fuel : nat) (c : ctx) : option ctx :=
  match mark fuel (c_heap c) (dl_head (c_waiting c)) with
  | None => None
  | Some h => let '(h, f, w) := splice h (c_flushing c) (c_waiting c) in Some (set_lists c h w f)
  end.

(** Removing a store from the list it is on: include/nudb/impl/context.ipp:161-189, when
    its state is not intermediate. *)
Definition unlink (c : ctx) (x : N) : ctx :=
  match stt (c_heap c x) with
  | SWaiting =>
    let '(h, l) := dl_erase (c_heap c) (c_waiting c) x in
    wakes (set_lists c (set_stt h x SNone) l (c_flushing c)) wake_w
  | SFlushing =>
    let '(h, l) := dl_erase (c_heap c) (c_flushing c) x in
    set_lists c (set_stt h x SNone) (c_waiting c) l
  | SIntermediate => c
  | SNone => c
  end.

(** What a transition is, for the observer. *)
Inductive label :=
| LTau                     (* nothing of interest *)
| LCall (t : N) (s : tstate) (* a call begins *)
| LMove                    (* waiting_ is moved to flushing_ *)
| LFlush (t x : N)         (* the flush of store x begins *)
| LFlushed (t x : N)       (* the flush of store x ends *)
| LDrained (t : N)         (* flush_one returns false *)
| LOpened (t x : N)        (* open() of x returns *)
| LClosed (t x : N).       (* ctx_->erase of x returns, in close() *)

(** A call on store [x] is under way. *)
Definition in_call (s : tstate) (x : N) : Prop :=
  s = TOpen x \/ s = TClose x \/ exists b, s = TWaitX x b.

(** The calls a program may begin.  Correct use: a store is opened when it is not open, and
    no two calls of open() and close() on the same store overlap. *)
Inductive begins (c : ctx) : tstate -> ctx -> Prop :=
| b_start : begins c TStart c
| b_run : begins c TRun c
| b_flush : begins c TFlush c
| b_stop : begins c TStop c
| b_open x : c_open c x = false -> (forall t, ~ in_call (c_th c t) x) -> begins c (TOpen x) c
| b_close x : c_open c x = true -> (forall t, ~ in_call (c_th c t) x) ->
    begins c (TClose x) (set_open c x false).        (* basic_store.ipp:195-198 *)

(** Transitions of thread [t].  Line numbers are of include/nudb/impl/context.ipp. *)
Inductive cstep (c : ctx) (t : N) : label -> ctx -> Prop :=
| s_call s c' :
    c_th c t = TIdle -> c_t c <> Some t -> begins c s c' ->
    cstep c t (LCall t s) (goto c' t s)
(* start(), 24-31; the new thread [k] is one that does nothing so far *)
| s_start_no : c_th c t = TStart -> c_stop c = true \/ c_t c <> None ->
    cstep c t LTau (goto c t TIdle)
| s_start k : c_th c t = TStart -> c_stop c = false -> c_t c = None -> c_th c k = TIdle ->
    cstep c t LTau (goto (goto (set_t c (Some k)) k TRun) t TIdle)
(* run(), 61-65 *)
| s_run : c_th c t = TRun ->
    cstep c t LTau (goto (set_num c (c_num c + 1)) t (TTop (c_num c + 1 =? 1)))
(* 71-76 and 99-105 *)
| s_top_stop f : c_th c t = TTop f -> c_stop c = true -> cstep c t LTau (goto c t TLeave)
| s_top_first : c_th c t = TTop true -> c_stop c = false ->
    cstep c t LTau (goto c t (TWaitF true false))
| s_top_go : c_th c t = TTop false -> c_stop c = false -> empty (c_flushing c) = false ->
    cstep c t LTau (goto c t (TLoop (Some false)))
| s_top_wait : c_th c t = TTop false -> c_stop c = false -> empty (c_flushing c) = true ->
    cstep c t LTau (goto c t (TWaitF false false))
(* timeout or spurious wakeup *)
| s_timeout f : c_th c t = TWaitF f false -> cstep c t LTau (goto c t (TWaitF f true))
| s_spurious x : c_th c t = TWaitX x false -> cstep c t LTau (goto c t (TWaitX x true))
| s_spurious_stop : c_th c t = TWaitS false -> cstep c t LTau (goto c t (TWaitS true))
(* 77-98 *)
| s_first_stop : c_th c t = TWaitF true true -> c_stop c = true -> cstep c t LTau (goto c t TLeave)
| s_first fuel c' : c_th c t = TWaitF true true -> c_stop c = false -> move_all fuel c = Some c' ->
    cstep c t LMove
      (if empty (c_flushing c') then goto c' t (TTop true)
       else if 1 <? c_num c' then goto (wakes c' wake_f) t (TTop true)
       else goto c' t (TLoop (Some true)))
(* 101-108 *)
| s_other_wait : c_th c t = TWaitF false true -> c_stop c = false -> empty (c_flushing c) = true ->
    cstep c t LTau (goto c t (TWaitF false false))
| s_other_stop : c_th c t = TWaitF false true -> c_stop c = true -> cstep c t LTau (goto c t TLeave)
| s_other : c_th c t = TWaitF false true -> c_stop c = false -> empty (c_flushing c) = false ->
    cstep c t LTau (goto c t (TLoop (Some false)))
(* 117-119 *)
| s_leave : c_th c t = TLeave ->
    cstep c t LTau (wakes (goto (set_num c (c_num c - 1)) t TIdle) wake_w)
(* flush(), 122-143 *)
| s_flush_no : c_th c t = TFlush -> c_stop c = true \/ 0 < c_num c -> cstep c t LTau (goto c t TIdle)
| s_flush fuel c' : c_th c t = TFlush -> c_stop c = false -> c_num c = 0 -> move_all fuel c = Some c' ->
    cstep c t LMove (goto c' t (TLoop None))
(* flush_one(), 192-213 *)
| s_drained r : c_th c t = TLoop r -> empty (c_flushing c) = true ->
    cstep c t (LDrained t) (goto c t (match r with Some f => TTop f | None => TIdle end))
| s_take r x h l : c_th c t = TLoop r -> dl_head (c_flushing c) = Some x ->
    dl_erase (set_stt (c_heap c) x SIntermediate) (c_flushing c) x = (h, l) ->
    cstep c t (LFlush t x) (goto (set_lists c h (c_waiting c) l) t (TBusy r x))
| s_put r x h l : c_th c t = TBusy r x ->
    push_back (set_stt (c_heap c) x SWaiting) (c_waiting c) x = (h, l) ->
    cstep c t (LFlushed t x) (wakes (goto (set_lists c h l (c_flushing c)) t (TLoop r)) wake_w)
(* insert(), 145-153 (basic_store.ipp:186-187) *)
| s_open x h l : c_th c t = TOpen x ->
    push_back (set_stt (c_heap c) x SWaiting) (c_waiting c) x = (h, l) ->
    cstep c t (LOpened t x) (wakes (goto (set_open (set_lists c h l (c_flushing c)) x true) t TIdle) wake_w)
(* erase(), 155-190 *)
| s_close x : c_th c t = TClose x -> stt (c_heap c x) <> SIntermediate ->
    cstep c t (LClosed t x) (goto (unlink c x) t TIdle)
| s_close_wait x : c_th c t = TClose x -> stt (c_heap c x) = SIntermediate ->
    cstep c t LTau (goto c t (TWaitX x false))
| s_close_again x : c_th c t = TWaitX x true -> stt (c_heap c x) = SIntermediate ->
    cstep c t LTau (goto c t (TWaitX x false))
| s_close_now x : c_th c t = TWaitX x true -> stt (c_heap c x) <> SIntermediate ->
    cstep c t (LClosed t x) (goto (unlink c x) t TIdle)
(* stop_all(), 33-55 *)
| s_stop_no : c_th c t = TStop -> c_stop c = true -> cstep c t LTau (goto c t TIdle)
| s_stop : c_th c t = TStop -> c_stop c = false ->
    cstep c t LTau (goto (wakes (wakes (set_stop c true) wake_f) wake_w) t (TWaitS true))
| s_stop_wait : c_th c t = TWaitS true -> 0 < c_num c -> cstep c t LTau (goto c t (TWaitS false))
| s_stop_join k : c_th c t = TWaitS true -> c_num c = 0 -> c_t c = Some k ->
    cstep c t LTau (goto c t (TJoin k))
| s_stop_done : c_th c t = TWaitS true -> c_num c = 0 -> c_t c = None ->
    cstep c t LTau (goto (set_stop c false) t TIdle)
| s_join k : c_th c t = TJoin k -> c_th c k = TIdle ->
    cstep c t LTau (goto (set_t c None) t TJoined)
| s_joined : c_th c t = TJoined -> cstep c t LTau (goto (set_stop c false) t TIdle).

(** Executions: the labels of the transitions made between two states. *)
Inductive cexec : ctx -> list label -> ctx -> Prop :=
| ce_nil c : cexec c [] c
| ce_step c t l c1 ls c2 : cstep c t l c1 -> cexec c1 ls c2 -> cexec c (l :: ls) c2.

Definition reachable (c : ctx) : Prop := exists ls, cexec ctx0 ls c.
