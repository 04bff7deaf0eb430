(** Specification of visit() on arbitrary data files: what can follow the complete records. *)
From Verif Require Import Model.Bytes Model.Err SpecFormat SpecVisit.

(** The first bytes of a record, the rest of which is missing, and what visit() reports for them. *)
Inductive cut_short (key_size : N) : bytes -> err -> Prop :=
| cut_size x : 0 < blen x < 6 -> cut_short key_size x short_read
| cut_value s x : 0 < s < 2 ^ 32 -> blen x < key_size + s -> cut_short key_size (be 6 s ++ x) EThrow
| cut_spill_size x : blen x < 2 -> cut_short key_size (be 6 0 ++ x) short_read
| cut_spill s x : s < 2 ^ 16 -> blen x < s -> cut_short key_size (be 6 0 ++ be 2 s ++ x) short_read.

(** A size that no value can have. *)
Definition oversize (x : bytes) : Prop := exists s y, 2 ^ 32 <= s < 2 ^ 48 /\ x = be 6 s ++ y.

(** Complete records [l], then nothing, or part of a record, or an impossible size. *)
Definition parsed (key_size : N) (x : bytes) (l : list record) (rest : bytes) : Prop :=
  x = flat_map image l ++ rest /\ Forall (record_ok key_size) l /\
  (rest = [] \/ (exists er, cut_short key_size rest er) \/ oversize rest).

(** An item with a key of the right size and a value of a possible size. *)
Definition well_sized (key_size : N) (kv : bytes * bytes) : Prop :=
  blen (fst kv) = key_size /\ 0 < blen (snd kv) < 2 ^ 32.
