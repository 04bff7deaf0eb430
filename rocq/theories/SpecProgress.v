(** Specification of reports of progress. *)
From Verif Require Import Model.Bytes SpecFormat SpecHeader.

(** Calls progress(amount, total): the total does not change, and the amounts never
    decrease, starting with [from]. *)
Fixpoint rising (from total : N) (t : list (N * N)) : Prop :=
  match t with
  | [] => True
  | (x, y) :: t => y = total /\ from <= x /\ rising x total t
  end.

(** No amount exceeds [top]. *)
Definition at_most (top : N) (t : list (N * N)) : Prop := Forall (fun c => fst c <= top) t.

(** The number of passes over the data file that verify() makes with a buffer of [buf]
    bytes, for a key file of [nb] blocks of [bs] bytes: the buffer holds one block for
    itself and as many blocks, each with a counter of 8 bytes, as fit in the rest. *)
Definition passes (bs nb buf : N) : N :=
  let at_once := N.min nb ((buf - bs) / (bs + 8)) in (nb + at_once - 1) / at_once.

(** The number of keys in a key file [k] that is filled as its load factor says: the load
    factor (at byte 46, in 1/65536) of the places for keys in all its blocks but the
    first (the block size is at byte 44). *)
Definition expected (k : bytes) : N :=
  let bs := num_at 44 2 k in
  num_at 46 2 k * (blen k / bs - 1) * capacity bs / 65536.
