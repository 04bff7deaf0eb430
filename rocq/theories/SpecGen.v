(** Generation locks: what is seen of their use, and what is to be seen.  Nothing here depends
    on the model of NuDB. *)
From Verif Require Import Model.Bytes.

(** Thread [t] gets the lock, thread [t] gives it back, thread [t] starts a new generation,
    thread [t] has waited for the earlier generations to finish. *)
Inductive gev := ELock (t : N) | EUnlock (t : N) | EStart (t : N) | EFinish (t : N).

(** How many generations have been started since thread [t] got the lock it holds; [None] when
    it holds none. *)
Definition held1 (t : N) (a : option N) (v : gev) : option N :=
  match v, a with
  | ELock u, _ => if u =? t then Some 0 else a
  | EUnlock u, _ => if u =? t then None else a
  | EStart _, Some n => Some (n + 1)
  | _, _ => a
  end.
Definition held (t : N) (h : list gev) : option N := fold_left (held1 t) h None.

(** Nobody keeps a lock while 2^64 generations are started. *)
Definition no_wrap (h : list gev) : Prop :=
  forall t h1 h2 n, h = h1 ++ h2 -> held t h1 = Some n -> n < 2 ^ 64.

(** [n] threads satisfy [P]. *)
Definition number (P : N -> Prop) (n : N) : Prop :=
  exists l : list N, NoDup l /\ (forall t, In t l <-> P t) /\ blen l = n.
