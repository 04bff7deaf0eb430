(** What the tests expect of their random data. *)
From Verif Require Import Model.Bytes Model.Err Model.Generator.

(** The first [n] numbers drawn from a generator, and its state after them. *)
Fixpoint drawn (n : nat) (g : engine) : list N :=
  match n with
  | O => []
  | S n' => snd (engine_draw g) :: drawn n' (fst (engine_draw g))
  end.

Fixpoint after (n : nat) (g : engine) : engine :=
  match n with
  | O => g
  | S n' => after n' (fst (engine_draw g))
  end.

(** How many numbers of eight bytes it takes to fill [size] bytes. *)
Definition numbers_for (size : N) : nat := N.to_nat ((size + 7) / 8).

(** The bytes of the numbers drawn, in order, as many as asked for. *)
Definition random_bytes (le : bool) (g : engine) (size : N) : bytes :=
  btake size (flat_map (repr64 le) (drawn (numbers_for size) g)).
