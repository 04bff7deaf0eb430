(** Data races: two threads are about to access the same memory, not both reading it. *)
From Verif Require Import Model.Bytes Model.Access.

(** [a] reads or writes [p]. *)
Definition touches (a : act) (p : place) : Prop :=
  a = Rd p \/ a = Wr p \/ p = Ec /\ exists b, a = EcIs b.

(** [a] is the next action of thread [t]. *)
Definition about (s : mem) (t : nat) (a : act) : Prop :=
  exists h k, nth_error (me_th s) t = Some (h, Do a k).

Definition race (s : mem) (p : place) : Prop :=
  exists t t' a, t <> t' /\ about s t (Wr p) /\ about s t' a /\ touches a p.

(** The locks that are mutexes. *)
Definition is_mutex (l : lock) : bool := match l with LU | LM | LG | LC => true | _ => false end.

(** Thread [t] waits for a mutex that thread [t'] holds. *)
Definition waits (s : mem) (t t' : nat) : Prop :=
  exists l m m', is_mutex l = true /\ about s t (Acq l m) /\
    (exists h c, nth_error (me_th s) t' = Some (h, c) /\ In (l, m') h) /\ clash (l, m) (l, m') = true.
