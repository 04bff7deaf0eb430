(** The delays that insert() imposes on its caller. *)
From Verif Require Import Model.Bytes Model.Err Model.Format Model.IO Model.Bucket Model.Pool
  Model.Recover Model.Create Model.Store Model.History Spec.

(** The members rate, burst and when of basic_store::state
    (include/nudb/basic_store.hpp:80-82).  Points of time are numbers of ticks of the clock. *)
Record limiter := Limiter { li_rate : N; li_burst : N; li_when : N }.

(** Their initial values: include/nudb/basic_store.hpp:80-82. *)
Definition li_open (now : N) : limiter := Limiter 0 (4 * 1024 * 1024) now.

(** set_burst(): include/nudb/impl/basic_store.ipp:458-466 (called on an open database). *)
Definition li_set_burst (n : N) (li : limiter) : limiter := Limiter (li_rate li) n (li_when li).

(** Time elapsed, at least one tick: include/nudb/impl/basic_store.ipp:338-339, 782-783. *)
Definition elapsed (from now : N) : N := if from <? now then now - from else 1.

(** The work that is waiting for the next flush: include/nudb/impl/basic_store.ipp:340-341
    (without overflow of std::size_t). *)
Definition waiting_work (s : store) : N :=
  pl_data_size (st_p1 s) + 3 * blen (pl_map (st_p1 s)) * kh_block_size (st_kh s).

(** Whether insert() sleeps: include/nudb/impl/basic_store.ipp:337-345.  [per] is the
    computation of a rate from work and time (lines 342-343 and 784-785), which is done with
    floating point numbers; here it may be any function. *)
Definition throttled (per : N -> N -> N) (li : limiter) (s : store) (now : N) : bool :=
  let work := waiting_work s in
  let rate := per work (elapsed (li_when li) now) in
  negb (li_rate li =? 0) && (li_rate li <? rate) && (li_burst li <? work).

(** commit() with its result work: include/nudb/impl/basic_store.ipp:580-755, 591 and 691. *)
Definition commit_w (e : env) (s : store) : prog (res (store * N)) :=
  let kh := st_kh s in
  let p0 := st_p1 s in
  let p1 := st_p0 s in
  let work := pl_data_size p0 in
  commit_begin e kh ;;;
  st <- commit_data e kh (st_thresh s) (st_frac s) (st_buckets s) (st_modulus s) (pl_map p0) ;;
  let work := work + kh_block_size kh * (2 * blen (cs_c0 st) + blen (cs_c1 st)) in
  commit_log e (cs_c0 st) ;;;
  commit_key (kh_block_size kh) (e_iter e (cs_c1 st)) ;;;
  commit_end ;;;
  pret (Store kh pool_empty p1 [] (cs_frac st) (st_thresh s) (cs_buckets st) (cs_modulus st) None, work).

(** The part of flush() that concerns the store: include/nudb/impl/basic_store.ipp:757-804.
    The second component is the work of a successful commit. *)
Definition flush_w (e : env) (s : store) : prog (store * option N) :=
  if pool_is_empty (st_p1 s) then Ret (s, None)
  else
    match st_ec s with
    | Some er => Ret (store_failed s er, None)
    | None =>
      bind (commit_w e s) (fun r =>
      match r with
      | Ok (s', n) => Ret (s', Some n)
      | Er er => Ret (store_failed s er, None)
      end)
    end.

(** The part of flush() that concerns the rate, begun at [t0], its commit ended at [t1]:
    include/nudb/impl/basic_store.ipp:769-790. *)
Definition li_flush (per : N -> N -> N) (li : limiter) (t0 t1 : N) (work : option N) : limiter :=
  match work with
  | Some n => Limiter (if li_burst li <? n then per n (elapsed t0 t1) else li_rate li) (li_burst li) t0
  | None => Limiter (li_rate li) (li_burst li) t0
  end.

(** A call with the points of time it reads from the clock, or a call of set_burst(). *)
Inductive tcall := TCall (c : op) (t0 t1 : N) | TBurst (n : N).

(** The state of an open store and its limiter, the answer, and whether the caller was made
    to sleep (include/nudb/impl/basic_store.ipp:352-353).  The rate measured by close() is
    lost with the state (basic_store.ipp:201-203). *)
Definition tcall_prog (per : N -> N -> N) (e : env) (s : store) (li : limiter) (c : tcall)
  : prog (option (store * limiter) * out * bool) :=
  match c with
  | TBurst n => Ret (Some (s, li_set_burst n li), ODone, false)
  | TCall (OpInsert k v) t0 _ =>
    bind (store_insert e s k v) (fun r =>
    match r with
    | Ok s' => Ret (Some (s', li), insert_out r, throttled per li s' t0)
    | Er _ => Ret (Some (s, li), insert_out r, false)
    end)
  | TCall (OpFetch k) _ _ =>
    bind (store_fetch e s k) (fun r => Ret (Some (s, li), fetch_out r, false))
  | TCall OpFlush t0 t1 =>
    bind (flush_w e s) (fun '(s', n) =>
    Ret (Some (s', li_flush per li t0 t1 n), done_out (st_ec s'), false))
  | TCall OpReopen t0 _ =>
    bind (store_close e s) (fun r =>
    match r with
    | Er er => Ret (None, done_out (Some er), false)
    | Ok _ =>
      bind (store_open e) (fun r =>
      match r with
      | Er er => Ret (None, done_out (Some er), false)
      | Ok s' => Ret (Some (s', li_open t0), ODone, false)
      end)
    end)
  end.

(** A history of such calls, as in History.v: files, state, answers and sleeps. *)
Fixpoint tcalls (per : N -> N -> N) (e : env) (s : store) (li : limiter) (l : list tcall) (w : world)
  : world * option (store * limiter) * list (out * bool) :=
  match l with
  | [] => (w, Some (s, li), [])
  | c :: l' =>
    match run (tcall_prog per e s li c) w with
    | (w', (Some _, OAborted, b)) => (w', None, [(OAborted, b)])
    | (w', (Some (s', li'), o, b)) =>
      let '(w'', s'', os) := tcalls per e s' li' l' w' in (w'', s'', (o, b) :: os)
    | (w', (None, o, b)) => (w', None, [(o, b)])
    end
  end.

(** The life of a database, opened at the time [now]. *)
Definition tlife (per : N -> N -> N) (e : env) (a : create_args) (now : N) (l : list tcall)
  : world * option (store * limiter) * list (out * bool) :=
  let '(w1, r1) := run (create e a) no_files in
  match r1 with
  | Er er => (w1, None, [(done_out (Some er), false)])
  | Ok _ =>
    let '(w2, r2) := run (store_open e) w1 in
    match r2 with
    | Er er => (w2, None, [(done_out (Some er), false)])
    | Ok s => tcalls per e s (li_open now) l w2
    end
  end.
