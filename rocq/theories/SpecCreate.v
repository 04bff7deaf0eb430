(** Specification of create(): its conditions and the files of a new database. *)
From Verif Require Import Model.Bytes Model.Err Model.Create SpecFormat SpecHeader.

(** The load factor is strictly between 0 and 1.  A NaN, which is not ordered,
    passes the test. *)
Definition load_factor_ok (f : float) : bool :=
  match f with FNaN => true | FVal n d => (0 <? n)%Z && (n <? Z.pos d)%Z end.

(** Conditions on the arguments, in the order of the checks. *)
Definition arg_checks (a : create_args) : list check :=
  [ (1 <=? ca_key_size a, invalid_key_size);
    (ca_block_size a <=? 65535, invalid_block_size);
    (load_factor_ok (ca_load_factor a), invalid_load_factor);
    (104 <=? ca_block_size a, invalid_block_size) ].

(** The data file: 28 bytes of fields, 64 zeros. *)
Definition new_dat (a : create_args) : bytes :=
  dat_type ++ be 2 2 ++ be 8 (ca_uid a) ++ be 8 (ca_appnum a) ++ be 2 (ca_key_size a) ++ repeat 0 64.

(** The key file: 48 bytes of fields, zeros up to the end of the second block.
    [lf] is the load factor in units of 1/65536. *)
Definition new_key (H : N -> bytes -> N) (a : create_args) (lf : N) : bytes :=
  key_type ++ be 2 2 ++ be 8 (ca_uid a) ++ be 8 (ca_appnum a) ++ be 2 (ca_key_size a) ++
  be 8 (ca_salt a) ++ be 8 (fingerprint H (ca_salt a)) ++ be 2 (ca_block_size a) ++ be 2 lf ++
  repeat 0 (56 + N.to_nat (ca_block_size a - 104) + N.to_nat (ca_block_size a)).
