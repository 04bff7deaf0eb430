(** Specification of the file headers: where each field is and which conditions a
    usable set of files meets, with the error documented for each condition
    (include/nudb/error.hpp).  Nothing here depends on the model of NuDB except
    the names of the error codes. *)
From Verif Require Import Model.Bytes Model.Err SpecFormat.

(** [n] bytes from position [off], and the number they denote. *)
Definition bytes_at (off n : nat) (l : bytes) : bytes := firstn n (skipn off l).
Definition num_at (off n : nat) (l : bytes) : N := be_value (bytes_at off n l).

Definition text (off : nat) (t l : bytes) : bool :=
  if list_eq_dec N.eq_dec (bytes_at off (length t) l) t then true else false.
Definition same (off n off' : nat) (a b : bytes) : bool :=
  num_at off n a =? num_at off' n b.

(** "nudb.dat", "nudb.key", "nudb.log" *)
Definition dat_type : bytes := [110; 117; 100; 98; 46; 100; 97; 116].
Definition key_type : bytes := [110; 117; 100; 98; 46; 107; 101; 121].
Definition log_type : bytes := [110; 117; 100; 98; 46; 108; 111; 103].

(** The hash function [H] of the program applied to the salt of the file. *)
Definition fingerprint (H : N -> bytes -> N) (salt : N) : N :=
  H salt (rev (be 8 salt)) mod 2 ^ 64.

(** A condition and the error when it does not hold. *)
Definition check := (bool * err)%type.

(** Data file: type 0, version 8, uid 10, appnum 18, key size 26. *)
Definition dat_checks (d : bytes) : list check :=
  [ (text 0 dat_type d, not_data_file);
    (num_at 8 2 d =? 2, different_version);
    (1 <=? num_at 26 2 d, invalid_key_size) ].

(** Key file: type 0, version 8, uid 10, appnum 18, key size 26, salt 28,
    pepper 36, block size 44, load factor 46; the first block is followed by at
    least one more. *)
Definition key_checks (H : N -> bytes -> N) (k : bytes) : list check :=
  [ (text 0 key_type k, not_key_file);
    (num_at 8 2 k =? 2, different_version);
    (1 <=? num_at 26 2 k, invalid_key_size);
    (num_at 36 8 k =? fingerprint H (num_at 28 8 k), hash_mismatch);
    (1 <=? num_at 46 2 k, invalid_load_factor);
    (104 <=? num_at 44 2 k, invalid_capacity);
    (2 * num_at 44 2 k <=? N.of_nat (length k), invalid_bucket_count) ].

Definition dat_key_checks (d k : bytes) : list check :=
  [ (same 10 8 10 k d, uid_mismatch);
    (same 18 8 18 k d, appnum_mismatch);
    (same 26 2 26 k d, key_size_mismatch) ].

(** Log file: type 0, version 8, uid 10, appnum 18, key size 26, salt 28, pepper
    36, block size 44, key file size 46, data file size 54. *)
Definition log_checks (H : N -> bytes -> N) (l : bytes) : list check :=
  [ (text 0 log_type l, not_log_file);
    (num_at 8 2 l =? 2, different_version);
    (num_at 36 8 l =? fingerprint H (num_at 28 8 l), hash_mismatch);
    (1 <=? num_at 26 2 l, invalid_key_size) ].

Definition key_log_checks (k l : bytes) : list check :=
  [ (same 10 8 10 k l, uid_mismatch);
    (same 18 8 18 k l, appnum_mismatch);
    (same 26 2 26 k l, key_size_mismatch);
    (same 28 8 28 k l, salt_mismatch);
    (same 36 8 36 k l, pepper_mismatch);
    (same 44 2 44 k l, block_size_mismatch) ].

(** The error of the first condition that fails. *)
Fixpoint first_failed (l : list check) : option err :=
  match l with
  | [] => None
  | (ok, er) :: l => if ok then first_failed l else Some er
  end.
