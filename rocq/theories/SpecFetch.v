(** Specification of the ratios reported by verify(). *)
From Verif Require Import Model.Bytes Model.Err Model.IO.

(** The number of file reads that a program makes when it runs on the files [w]. *)
Definition is_read (o : io) : bool := match o with IoRead _ _ _ => true | _ => false end.
Fixpoint nreads {A} (p : prog A) (w : world) : N :=
  match p with
  | Ret _ => 0
  | Do o k => (if is_read o then 1 else 0) + (let '(w', r) := exec o w in nreads (k r) w')
  end.
