(** Specification of what the tool shows. *)
From Coq Require Import String Ascii DecimalString.
From Verif Require Import Model.Bytes.
Local Open Scope list_scope.
Local Open Scope N_scope.

(** The number a sequence of decimal digits stands for; [None] if something else is among them. *)
Definition decimal (s : list ascii) : option N :=
  option_map N.of_uint (NilZero.uint_of_string (string_of_list_ascii s)).

Definition not_comma (c : ascii) : bool := negb (Ascii.eqb c ","%char).

(** In a number written backwards, commas are at every fourth place and nowhere else. *)
Definition placed_commas (l : list ascii) : Prop :=
  forall i c, nth_error l i = Some c -> (c = ","%char <-> (i mod 4 = 3)%nat).

(** The number a sequence of hexadecimal digits stands for. *)
Definition hex_of (c : ascii) : option N :=
  let n := N_of_ascii c in
  if (48 <=? n) && (n <=? 57) then Some (n - 48)
  else if (97 <=? n) && (n <=? 102) then Some (n - 87)
  else None.
Definition hex_next (x : option N) (c : ascii) : option N :=
  match x, hex_of c with Some x, Some d => Some (16 * x + d) | _, _ => None end.
Definition hex_value (s : list ascii) : option N := fold_left hex_next s (Some 0).

(** The values that are counted at place [i] of the histogram: those whose size is at least 2^i and less
    than 2^(i+1). *)
Definition of_size (i : nat) (kv : bytes * bytes) : bool :=
  (2 ^ N.of_nat i <=? blen (snd kv)) && (blen (snd kv) <? 2 ^ (N.of_nat i + 1)).
