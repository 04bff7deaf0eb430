(** Which shared members the functions of the library read and write, under which locks.

    Every function that several threads may run is given here as the sequence of its
    accesses to shared memory and of its lock operations; what is computed is left out.
    Data-dependent branches become choices and loops repeat any number of times, so a
    function here can do all that the function in the code can do.  The branches on ec_
    and ecb_ alone are kept.  Contents of files are the subject of C25; local variables,
    the parameters of calls and the condition variables (whose functions may be called
    concurrently) are left out. *)
From Verif Require Import Model.Bytes.

(** Shared memory: the members of basic_store and its struct state
    (include/nudb/basic_store.hpp:67-118), of gentex_t (include/nudb/detail/gentex.hpp:26-29)
    and of context (include/nudb/context.hpp:140-149).  Members with the same accesses
    are one place:
    - [P0] is all of the pool p0 but the offsets in its elements (e.second in
      include/nudb/impl/basic_store.ipp:641), which are [P0off]; [P1] is the whole
      pool p1; [C1] is the cache with the memory of its buckets;
    - [Fixed] is what only open() and close() change: s_, hasher, kh, the paths, thresh_,
      dataWriteSize_, logWriteSize_ and the descriptors in df and kf; [Lf] is the
      descriptor in lf;
    - [Gens] is gen_, cur_ and prev_ of the gentex; [Lists] is waiting_, flushing_ and the
      members of store_base (include/nudb/detail/store_base.hpp:40-42); [Runner] is t_. *)
Inductive place :=
  Opened | P0 | P0off | P1 | C1 | Buckets | Modulus | Frac | When | Rate | Burst | Ec | Lf | Fixed
| Gens | Lists | NumThreads | Stopping | Runner.

(** Locks.  [LU], [LM], [LG] and [LC] are the mutexes u_ and m_ of basic_store, m_ of
    gentex_t and m_ of context.  The others are not mutexes of the code, but rights that
    exclude each other in the same way:
    - [LF]: to be the thread that flushes this store: flush_one() takes the store out of
      flushing_, puts it back when done (C26_one_list), and erase() waits meanwhile;
    - [LS]: stop_ has been set by this thread (exclusive), or stop_ is not set and the
      mutex of the context is held (shared);
    - [LA]: the rule of the documentation that close() is not called concurrently with
      other functions of the store (include/nudb/basic_store.hpp:403-406).
    [SawEcb] and [SawEc] record that the thread has seen ecb_ or ec_ set. *)
Inductive lock := LU | LM | LG | LC | LF | LS | LA | SawEcb | SawEc.
Inductive mode := Sh | Ex.

(** Actions.  ecb_ is atomic: [EcbIs b] is a test that gives b, [SetEcb] stores true.
    [EcIs b] is a test of ec_ that gives b; [Wr Ec] sets it to an error, which is what a
    failing file operation does to the error_code it is given. *)
Inductive act :=
  Acq (l : lock) (m : mode) | Rel (l : lock) | Rd (p : place) | Wr (p : place)
| EcbIs (b : bool) | SetEcb | EcIs (b : bool).

(** Programs: an action, a choice, a repetition, and the end of a call. *)
Inductive code :=
  End | Return | Do (a : act) (k : code) | Or (x y k : code) | Many (x k : code).

Fixpoint cat (x k : code) : code :=
  match x with
  | End => k
  | Return => Return
  | Do a x => Do a (cat x k)
  | Or y z x => Or y z (cat x k)
  | Many y x => Many y (cat x k)
  end.
Definition acts (l : list act) (k : code) : code := fold_right Do k l.

(** A function is the list of its parts; [stop] ends the call. *)
Definition body (l : list (code -> code)) : code := fold_right (fun f k => f k) End l.
Definition stop (_ : code) : code := Return.

(** A file operation of the flush that may fail; then [quit] follows. *)
Definition may_fail (quit : list act) : code -> code :=
  Or (body [acts [Wr Ec]; acts quit; stop]) End.

(** lock_gen() and unlock_gen(): include/nudb/detail/gentex.hpp:71-99. *)
Definition gen_count : list act := [Acq LG Ex; Wr Gens; Rel LG].

(** fetch(): include/nudb/impl/basic_store.ipp:224-264 with :356-408. *)
Definition a_fetch : code := body
 [acts [Acq LA Sh; Rd Opened];                                          (* 230 *)
  Or (body [acts [EcbIs true; Rd Ec; Rel SawEcb; Rel LA]; stop])        (* 231-235 *)
     (body [acts [EcbIs false]]);
  acts [Rd Fixed; Acq LM Sh; Rd P1];                                    (* 236-240 *)
  Or (body [acts [Rd P1; Rel LM; Rel LA]; stop]) End;                   (* 247-248 *)
  acts [Rd P0];                                                         (* 243 *)
  Or (body [acts [Rd P0; Rel LM; Rel LA]; stop]) End;                   (* 247-248 *)
  acts [Rd Buckets; Rd Modulus; Rd C1];                                 (* 251-252 *)
  Or (body [Many (body [acts [Rd C1; Rd Fixed]]);                       (* 253-254, 356-408 *)
            acts [Rel LM; Rel LA]; stop]) End;
  acts gen_count;                                                       (* 255 *)
  acts [Rel LM];                                                        (* 256 *)
  Many (body [acts [Rd Fixed]]);                                        (* 257-263 *)
  acts gen_count; acts [Rel LA]].

(** insert(): include/nudb/impl/basic_store.ipp:269-351, with exists() :413-454. *)
Definition a_insert : code := body
 [acts [Acq LA Sh; Rd Opened];                                          (* 277 *)
  Or (body [acts [EcbIs true; Rd Ec; Rel SawEcb; Rel LA]; stop])        (* 278-282 *)
     (body [acts [EcbIs false]]);
  acts [Rd Fixed; Acq LU Ex; Acq LM Sh; Rd P1; Rd P0];                  (* 286-292 *)
  Or (body [acts [Rel LM; Rel LU; Rel LA]; stop]) End;                  (* 294-295 *)
  acts [Rd Buckets; Rd Modulus; Rd C1];                                 (* 297-298 *)
  Or (body [Many (body [acts [Rd C1; Rd Fixed]]);                       (* 301-302, 425-442 *)
            Or (body [acts [Rel LM; Rel LU; Rel LA]; stop]) End;        (* 303-309 *)
            acts [Rel LM];                                              (* 444-445 *)
            Many (body [acts [Rd Fixed]]);                              (* 446-453 *)
            Or (body [acts [Rel LU; Rel LA]; stop]) End])
     (body [acts gen_count;                                             (* 315 *)
            acts [Rel LM];                                              (* 316 *)
            Many (body [acts [Rd Fixed]]);                              (* 317-324 *)
            acts gen_count;
            Or (body [acts [Rel LU; Rel LA]; stop]) End]);              (* 325-331 *)
  acts [Acq LM Ex; Wr P1; Rd When; Rd P1; Rd Fixed; Rd Rate; Rd Burst; Rel LM]; (* 335-346 *)
  acts [Rel LU; Rel LA]].

(** set_burst(): include/nudb/impl/basic_store.ipp:461-466. *)
Definition a_set_burst : code := body [acts [Acq LA Sh; Acq LM Ex; Wr Burst; Rel LM; Rel LA]].

(** dat_path(), key_path(), log_path(), appnum(), key_size(), block_size() and is_open():
    include/nudb/impl/basic_store.ipp:64-117, include/nudb/basic_store.hpp:171-175. *)
Definition a_observe : code := body [acts [Acq LA Sh; Rd Opened; Rd Fixed; Rel LA]].

(** commit(): include/nudb/impl/basic_store.ipp:580-755, called with m_ locked; [quit] is
    what the caller does after an error.  The caches c0 and c1, up to the swap, are
    local. *)
Definition a_commit (quit : list act) : list (code -> code) :=
 [acts [Wr P0; Wr P0off; Wr P1; Rel LM; Rd P0; Rd Fixed];               (* 589-612 *)
  may_fail quit;                                                        (* 613, kf.size *)
  Or (body [acts [EcIs true]; acts quit; stop]) (body [acts [EcIs false]]); (* 614-615 *)
  may_fail quit;                                                        (* 616-618 *)
  acts [Rd Lf]; may_fail quit;                                          (* 619-625 *)
  acts [Rd Modulus; Rd Buckets];                                        (* 627-628 *)
  may_fail quit;                                                        (* 631-633 *)
  Many (body [acts [Wr P0off; Rd P0; Rd Fixed]; may_fail quit]);        (* 636-650 *)
  Many (body [acts [Rd P0; Rd Frac; Wr Frac; Rd Fixed]; may_fail quit; acts [Rd P0off]]); (* 653-686 *)
  may_fail quit;                                                        (* 687-689 *)
  acts [Rd Fixed; Acq LM Ex; Wr C1; Wr P0; Wr P0off; Wr Buckets; Wr Modulus]; (* 691-699 *)
  acts [Acq LG Ex; Wr Gens; Rel LG; Rel LM];                            (* 700-701 *)
  acts [Rd Lf]; may_fail quit;                                          (* 703-727 *)
  Many (body [acts [Acq LG Ex; Rd Gens; Rel LG]]);                      (* 728 *)
  Many (body [acts [Rd C1; Rd Fixed]; may_fail quit]);                  (* 729-736 *)
  acts [Rd Fixed; Rd Lf]; may_fail quit;                                (* 738-749 *)
  acts [Acq LM Ex; Wr C1]].                                             (* 753-754 *)

(** flush_one() choosing this store, include/nudb/impl/context.ipp:192-213, with flush(),
    include/nudb/impl/basic_store.ipp:757-804. *)
Definition a_put_back : list act := [Acq LC Ex; Wr Lists; Rel LF; Rel LC].
Definition a_flush_one : code := body
 [acts [Acq LC Ex; Rd Lists; Acq LF Ex; Wr Lists; Rel LC];              (* context.ipp:198-204 *)
  acts [Acq LM Ex; Wr When; Rd P1];                                     (* basic_store.ipp:769-771 *)
  Or (body (a_commit (SetEcb :: Rel SawEc :: a_put_back) ++             (* 774-779 *)
            [acts [EcIs false; Rd When; Rd Burst; Wr Rate]])) End;      (* 775-790 *)
  acts [Wr P1; Rel LM];                                                 (* 800-801 *)
  Or (body [acts [EcIs true; SetEcb; Rel SawEc]]) (body [acts [EcIs false]]); (* 802-803 *)
  acts a_put_back].                                                     (* context.ipp:208-211 *)

(** flush_one() with another store or none: include/nudb/impl/context.ipp:192-213. *)
Definition a_flush_other : code := body
 [acts [Acq LC Ex; Rd Lists]; Or (body [acts [Wr Lists; Rel LC; Acq LC Ex; Wr Lists]]) End; acts [Rel LC]].

(** insert() and erase() for another store of the context:
    include/nudb/impl/context.ipp:145-190. *)
Definition a_list_other : code := body
 [acts [Acq LC Ex; Rd Lists]; Many (body [acts [Rel LC; Acq LC Ex; Rd Lists]]); acts [Wr Lists; Rel LC]].

(** The critical sections of run() and of flush(): include/nudb/impl/context.ipp:57-143. *)
Definition a_run : code := body
 [acts [Acq LC Ex; Rd NumThreads; Wr NumThreads; Rel LC]].              (* 61-65, 117-118 *)
Definition a_serve : code := body
 [acts [Acq LC Ex; Rd Stopping]; Or (body [acts [Rel LC]; stop]) End;   (* 71-73 *)
  Many (body [acts [Rel LC; Acq LC Ex; Rd Stopping; Rd Lists]]);        (* 76-78, 101-107 *)
  Or (body [acts [Rd Lists; Wr Lists]]) End;                            (* 79-86 *)
  acts [Rd Lists; Rd NumThreads; Rel LC]].                              (* 89-97 *)
Definition a_context_flush : code := body
 [acts [Acq LC Ex; Rd Stopping; Rd NumThreads]; Or (body [acts [Rel LC]; stop]) End; (* 127-130 *)
  acts [Rd Lists; Wr Lists; Rel LC]].                                   (* 132-137 *)

(** start(): include/nudb/impl/context.ipp:24-31. *)
Definition a_start : code := body
 [acts [Acq LC Ex; Rd Stopping];
  Or (body [acts [Acq LS Sh; Rd Runner]; Or (body [acts [Wr Runner]]) End; acts [Rel LS]]) End;
  acts [Rel LC]].

(** stop_all(): include/nudb/impl/context.ipp:33-56; join() is called without the mutex. *)
Definition a_stop_all : code := body
 [acts [Acq LC Ex; Rd Stopping]; Or (body [acts [Rel LC]; stop]) End;   (* 37-39 *)
  acts [Acq LS Ex; Wr Stopping; Rd NumThreads];                         (* 40-46 *)
  Many (body [acts [Rel LC; Acq LC Ex; Rd NumThreads]]);
  acts [Rd Runner];                                                     (* 48 *)
  Or (body [acts [Rel LC; Wr Runner; Acq LC Ex]]) End;                  (* 50-52 *)
  acts [Wr Stopping; Rel LS; Rel LC]].                                  (* 54 *)

(** close(): include/nudb/impl/basic_store.ipp:190-218, with erase(),
    include/nudb/impl/context.ipp:155-190.  Its rights are not given back: no function of
    the store may be called after it. *)
Definition a_close : code := body
 [acts [Acq LA Ex; Rd Opened]; Or Return End;                           (* 195 *)
  acts [Wr Opened; Acq LC Ex; Rd Lists];                                (* 197-198 *)
  Many (body [acts [Rel LC; Acq LC Ex; Rd Lists]]);
  acts [Acq LF Ex; Wr Lists; Rel LC; Rd P1];                            (* 198-199 *)
  Or (body ([acts [Acq LM Ex]] ++                                       (* 202 *)
            a_commit [SetEcb; EcbIs true; Rd Ec; Rel SawEcb; Rel SawEc] ++ (* 203-211 *)
            [acts [EcIs false; Rel LM]])) End;
  Or (body [acts [EcbIs true; Rd Ec; Rel SawEcb]; stop])                (* 207-211 *)
     (body [acts [EcbIs false]]);
  acts [Wr Lf; Wr P0; Wr P0off; Wr P1; Wr C1; Wr Fixed; Wr When; Wr Rate; Wr Burst]; (* 212-213 *)
  Or (body [acts [Wr Ec; Rd Ec; Rel SawEc]]) (body [acts [EcIs false]])]. (* 214-216 *)

(** What threads may call. *)
Definition calls : list code :=
  [a_fetch; a_insert; a_set_burst; a_observe; a_flush_one; a_flush_other; a_list_other;
   a_run; a_serve; a_context_flush; a_start; a_stop_all; a_close].

(** ** Execution *)

Definition lock_eqb (a b : lock) : bool :=
  match a, b with
  | LU, LU | LM, LM | LG, LG | LC, LC | LF, LF | LS, LS | LA, LA | SawEcb, SawEcb | SawEc, SawEc => true
  | _, _ => false
  end.
Definition held := list (lock * mode).

(** Two locks that two threads cannot hold at the same time. *)
Definition clash (a b : lock * mode) : bool :=
  lock_eqb (fst a) (fst b) && match snd a, snd b with Sh, Sh => false | _, _ => true end.

(** What a thread holds, in a fixed order. *)
Definition rank (l : lock) : N :=
  match l with LU => 0 | LM => 1 | LG => 2 | LC => 3 | LF => 4 | LS => 5 | LA => 6 | SawEcb => 7 | SawEc => 8 end.
Fixpoint add (x : lock * mode) (h : held) : held :=
  match h with
  | [] => [x]
  | y :: h' => if rank (fst x) <=? rank (fst y) then x :: h else y :: add x h'
  end.

(** What a thread holds after an action. *)
Definition holds_after (a : act) (h : held) : held :=
  match a with
  | Acq l m => add (l, m) h
  | Rel l => filter (fun x => negb (lock_eqb (fst x) l)) h
  | EcbIs true => add (SawEcb, Sh) h
  | EcIs true => add (SawEc, Sh) h
  | Wr Ec => add (SawEc, Sh) h
  | _ => h
  end.

(** Threads with what they hold and have to do; ecb_; whether ec_ is set; how many file
    operations of flushes have failed. *)
Record mem := Mem { me_th : list (held * code); me_ecb : bool; me_ec : bool; me_fails : N }.

(** The action of thread [t] changes the memory; None if it is not possible now. *)
Definition effect (t : nat) (a : act) (s : mem) : option mem :=
  match a with
  | Acq l m =>
    if existsb (fun x => existsb (clash (l, m)) (fst x)) (firstn t (me_th s) ++ skipn (S t) (me_th s))
    then None else Some s
  | EcbIs b => if eqb b (me_ecb s) then Some s else None
  | SetEcb => Some (Mem (me_th s) true (me_ec s) (me_fails s))
  | EcIs b => if eqb b (me_ec s) then Some s else None
  | Wr Ec => Some (Mem (me_th s) (me_ecb s) true (me_fails s + 1))
  | _ => Some s
  end.

Definition put (t : nat) (x : held * code) (s : mem) : mem :=
  Mem (firstn t (me_th s) ++ x :: skipn (S t) (me_th s)) (me_ecb s) (me_ec s) (me_fails s).

(** Choices: the next call, the branch, whether to repeat. *)
Inductive choice := Call (n : nat) | Go | First | Second.

(** One step of thread [t]. *)
Definition astep (t : nat) (ch : choice) (s : mem) : option mem :=
  match nth_error (me_th s) t with
  | None => None
  | Some (h, c) =>
    match c, ch with
    | End, Call n =>
      match h, nth_error calls n with
      | [], Some c => Some (put t ([], c) s)
      | _, _ => None
      end
    | Return, Go => Some (put t (h, End) s)
    | Do a k, Go =>
      match effect t a s with
      | Some s => Some (put t (holds_after a h, k) s)
      | None => None
      end
    | Or x y k, First => Some (put t (h, cat x k) s)
    | Or x y k, Second => Some (put t (h, cat y k) s)
    | Many x k, First => Some (put t (h, cat x (Many x k)) s)
    | Many x k, Second => Some (put t (h, k) s)
    | _, _ => None
    end
  end.

(** A store that has just been opened, and [n] threads. *)
Definition quiet_mem (n : nat) : mem := Mem (repeat ([], End) n) false false 0.

(** Any execution. *)
Inductive reached (n : nat) : mem -> Prop :=
| reached_start : reached n (quiet_mem n)
| reached_step s t ch s' : reached n s -> astep t ch s = Some s' -> reached n s'.
