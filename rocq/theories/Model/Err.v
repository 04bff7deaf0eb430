(** Outcomes of operations. *)
From Verif Require Import Model.Bytes.

(** Error codes: include/nudb/error.hpp:80-231 (enum class error), plus the
    operating system errors the model distinguishes and the outcomes that are
    not error codes in C++ (assertion failure, exception, undefined behaviour,
    divergence). *)
Inductive err :=
| key_not_found
| key_exists
| short_read
| log_file_exists
| no_key_file
| too_many_buckets
| not_data_file
| not_key_file
| not_log_file
| different_version
| invalid_key_size
| invalid_block_size
| short_key_file
| short_bucket
| short_spill
| short_data_record
| short_value
| hash_mismatch
| invalid_load_factor
| invalid_capacity
| invalid_bucket_count
| invalid_bucket_size
| incomplete_data_file_header
| incomplete_key_file_header
| invalid_log_record
| invalid_log_spill
| invalid_log_offset
| invalid_log_index
| invalid_spill_size
| uid_mismatch
| appnum_mismatch
| key_size_mismatch
| salt_mismatch
| pepper_mismatch
| block_size_mismatch
| orphaned_value
| missing_value
| size_mismatch
| duplicate_value
| ENoEnt            (* ENOENT from open/unlink *)
| EExist            (* EEXIST from open(O_CREAT|O_EXCL) *)
| EBadF             (* operation on a file that is not there *)
| EIO (n : N)       (* any other system error (injected) *)
| ECallback (n : N) (* error set by a visit callback *)
| EAppend           (* write to an O_APPEND file away from its end: result depends on the OS *)
| EAssert           (* BOOST_ASSERT fails *)
| EThrow            (* std::logic_error thrown *)
| EUB               (* undefined behaviour *)
| EDiverge.         (* loop fuel (2^64 iterations) exhausted *)

(** [error_code& ec]: a function returns its results or an error. *)
Inductive res (A : Type) := Ok (a : A) | Er (e : err).
Arguments Ok {A} _.
Arguments Er {A} _.

(** [if(ec) return;] between two pure steps. *)
Definition rbind {A B} (r : res A) (f : A -> res B) : res B :=
  match r with Ok a => f a | Er e => Er e end.
