(** Specification of the progress reported by rekey(). *)
From Verif Require Import Model.Bytes.

(** Calls progress(amount, total): the total does not change, the amounts never decrease
    and never exceed it. *)
Fixpoint reports (from total : N) (t : list (N * N)) : Prop :=
  match t with
  | [] => True
  | (x, y) :: t => y = total /\ from <= x <= total /\ reports x total t
  end.
