(** Which locks the functions of an open store take, wait for and hold while they call the
    callback of fetch(): include/nudb/impl/basic_store.ipp, with boost::shared_mutex for m_
    (include/nudb/detail/mutex.hpp:17-21), std::mutex for u_ and gentex for g_.

    Only the locking is modelled: keys, values and files are left out, and where a key is
    found is part of the call.  Calls that end with an error give back the same locks earlier
    and are left out; so is the internal mutex of gentex, which is never held for long. *)
From Verif Require Import Model.Bytes Model.Concurrent.

(** One operation on a lock: m_ shared and exclusive, u_, genlock on g_, and start() and
    finish() of g_. *)
Inductive act := AShared | AUnshared | AExcl | AUnexcl | ALockU | AUnlockU | AGen | AUngen | AStart | AFinish.

(** Where a key is looked for last: in the pools p1 and p0; in a bucket of the cache c1, which
    is filled during a flush; in the key file. *)
Inductive place := InPool | InCache | InFile.

(** A call of fetch(), with what the callback does if the key is found; of insert(), with
    whether the key is new; of set_burst(). *)
Inductive call :=
| Fetch (p : place) (cb : option (list call))
| Insert (p : place) (new : bool)
| SetBurst.

(** fetch(): basic_store.ipp:220-264.  For a pool or a cached bucket the callback is called
    while m_ is held (lines 238-255), otherwise while a generation is held (256-263).
    insert(): 266-354; exists() gives back m_ after the first bucket (444-445).
    set_burst(): 456-466. *)
Fixpoint acts (c : call) : list act :=
  match c with
  | Fetch p cb =>
    let inner := match cb with Some l => flat_map acts l | None => [] end in
    match p with
    | InFile => [AShared; AGen; AUnshared] ++ inner ++ [AUngen]
    | _ => [AShared] ++ inner ++ [AUnshared]
    end
  | Insert p new =>
    let add := if new then [AExcl; AUnexcl] else [] in
    match p with
    | InPool => [ALockU; AShared; AUnshared; AUnlockU]
    | InCache => [ALockU; AShared; AUnshared] ++ add ++ [AUnlockU]
    | InFile => [ALockU; AShared; AGen; AUnshared; AUngen] ++ add ++ [AUnlockU]
    end
  | SetBurst => [AExcl; AUnexcl]
  end.

(** What a thread does: a call, or a flush by the thread of the context, with or without
    pending values.  flush(): basic_store.ipp:757-804; commit(): 589-590, 695-701, 728, 753. *)
Inductive job := JCall (c : call) | JFlush (pending : bool).
Definition jacts (j : job) : list act :=
  match j with
  | JCall c => acts c
  | JFlush false => [AExcl; AUnexcl]
  | JFlush true => [AExcl; AUnexcl; AExcl; AStart; AUnexcl; AFinish; AExcl; AUnexcl]
  end.

(** A thread: what it still has to do, and the locks it owns: generations, m_ shared (how
    often) and exclusive, u_. *)
Record thr := Thr { t_todo : list act; t_gens : list N; t_sh : N; t_ex : bool; t_u : bool }.

(** The locks: whether m_ is owned exclusively, how many times shared, and whether somebody
    waits for it exclusively (exclusive_waiting_blocked of boost::shared_mutex, which keeps
    others from getting it shared); u_; g_. *)
Record sys := Sys { y_ex : bool; y_sh : N; y_wait : bool; y_u : bool; y_g : gentex; y_th : list thr }.

Fixpoint upd {A} (i : nat) (x : A) (l : list A) : list A :=
  match l, i with
  | [], _ => []
  | _ :: l', O => x :: l'
  | y :: l', S i' => y :: upd i' x l'
  end.

(** What thread [i] does next; [None] when it has to wait or has finished.  boost::shared_mutex:
    lock_shared() waits while m_ is owned exclusively or somebody waits for that; lock() sets
    the flag and waits while m_ is owned at all; the last unlock_shared() and unlock() clear the
    flag.  A thread that owns u_ waits for ever when it locks it again. *)
Definition step (i : nat) (y : sys) : option sys :=
  match nth_error (y_th y) i with
  | Some (Thr (a :: l) gs sh ex u) =>
    let th (t : thr) := upd i t (y_th y) in
    match a with
    | AShared =>
      if y_ex y || y_wait y then None
      else Some (Sys (y_ex y) (y_sh y + 1) (y_wait y) (y_u y) (y_g y) (th (Thr l gs (sh + 1) ex u)))
    | AUnshared =>
      Some (Sys (y_ex y) (y_sh y - 1) (if y_sh y =? 1 then false else y_wait y) (y_u y) (y_g y) (th (Thr l gs (sh - 1) ex u)))
    | AExcl =>
      if y_ex y || (0 <? y_sh y)
      then if y_wait y then None else Some (Sys (y_ex y) (y_sh y) true (y_u y) (y_g y) (y_th y))
      else Some (Sys true (y_sh y) (y_wait y) (y_u y) (y_g y) (th (Thr l gs sh true u)))
    | AUnexcl => Some (Sys false (y_sh y) false (y_u y) (y_g y) (th (Thr l gs sh false u)))
    | ALockU =>
      if y_u y then None else Some (Sys (y_ex y) (y_sh y) (y_wait y) true (y_g y) (th (Thr l gs sh ex true)))
    | AUnlockU => Some (Sys (y_ex y) (y_sh y) (y_wait y) false (y_g y) (th (Thr l gs sh ex false)))
    | AGen =>
      Some (Sys (y_ex y) (y_sh y) (y_wait y) (y_u y) (g_lock (y_g y)) (th (Thr l (g_gen (y_g y) :: gs) sh ex u)))
    | AUngen =>
      match gs with
      | g :: gs' => Some (Sys (y_ex y) (y_sh y) (y_wait y) (y_u y) (g_unlock (y_g y) g) (th (Thr l gs' sh ex u)))
      | [] => None
      end
    | AStart => Some (Sys (y_ex y) (y_sh y) (y_wait y) (y_u y) (g_start (y_g y)) (th (Thr l gs sh ex u)))
    | AFinish =>
      if g_finished (y_g y) then Some (Sys (y_ex y) (y_sh y) (y_wait y) (y_u y) (y_g y) (th (Thr l gs sh ex u)))
      else None
    end
  | _ => None
  end.

(** Threads that start with nothing locked. *)
Definition start (progs : list (list job)) : sys :=
  Sys false 0 false false (Gentex 0 0 0) (map (fun p => Thr (flat_map jacts p) [] 0 false false) progs).

(** Any number of steps of any threads. *)
Inductive reaches : sys -> sys -> Prop :=
| reach_here : forall y, reaches y y
| reach_step : forall y i y1 y2, step i y = Some y1 -> reaches y1 y2 -> reaches y y2.
