(** Specification of what a call reports when a file operation failed. *)
From Verif Require Import Model.Bytes Model.Err Model.IO SpecErr.

(** [p] may end with [a] when one of its file operations, whichever, failed with the error [n] of the operating
    system; all others are answered with any data, any number and any error of a file operation. *)
Inductive ends_failing {A} (n : N) : prog A -> A -> Prop :=
| ef_this o k a : may_end (k (RErr (EIO n))) a -> ends_failing n (Do o k) a
| ef_ok o k m d a : ends_failing n (k (ROk m d)) a -> ends_failing n (Do o k) a
| ef_err o k e a : of_file e -> ends_failing n (k (RErr e)) a -> ends_failing n (Do o k) a.

(** A call whose file operation failed fails. *)
Definition fails_too {A} (p : prog (res A)) : Prop :=
  forall n a, ends_failing n p a -> exists e, a = Er e.

(** It reports the error of the file operation. *)
Definition hands_on {A} (p : prog (res A)) : Prop :=
  forall n a, ends_failing n p a -> a = Er (EIO n).
