(** What it means that a doubly linked list of stores holds certain stores in a certain
    order. *)
From Verif Require Import Model.Bytes Model.Context.

(** [xs] are linked in this order by next_ and prev_; before the first there is [p]. *)
Fixpoint linked (h : heap) (p : option N) (xs : list N) : Prop :=
  match xs with
  | [] => True
  | x :: xs' => pv (h x) = p /\ nx (h x) = hd_error xs' /\ linked h (Some x) xs'
  end.

(** The list [l] holds exactly the stores [xs], each once, in this order. *)
Definition holds_list (h : heap) (l : dlist) (xs : list N) : Prop :=
  dl_head l = hd_error xs /\ dl_tail l = hd_error (rev xs) /\ linked h None xs /\ NoDup xs.
