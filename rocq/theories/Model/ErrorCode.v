(** Error codes, their category and their messages: include/nudb/error.hpp and
    include/nudb/impl/error.ipp. *)
From Coq Require Import String.
From Verif Require Import Model.Bytes Model.Err.
Local Open Scope string_scope.

(** The values of the enumeration: include/nudb/error.hpp:82-231; [success] is 0.  The other
    constructors of [err] are not values of this enumeration. *)
Definition value_of (e : err) : option Z :=
  match e with
  | key_not_found => Some 1%Z
  | key_exists => Some 2%Z
  | short_read => Some 3%Z
  | log_file_exists => Some 4%Z
  | no_key_file => Some 5%Z
  | too_many_buckets => Some 6%Z
  | not_data_file => Some 7%Z
  | not_key_file => Some 8%Z
  | not_log_file => Some 9%Z
  | different_version => Some 10%Z
  | invalid_key_size => Some 11%Z
  | invalid_block_size => Some 12%Z
  | short_key_file => Some 13%Z
  | short_bucket => Some 14%Z
  | short_spill => Some 15%Z
  | short_data_record => Some 16%Z
  | short_value => Some 17%Z
  | hash_mismatch => Some 18%Z
  | invalid_load_factor => Some 19%Z
  | invalid_capacity => Some 20%Z
  | invalid_bucket_count => Some 21%Z
  | invalid_bucket_size => Some 22%Z
  | incomplete_data_file_header => Some 23%Z
  | incomplete_key_file_header => Some 24%Z
  | invalid_log_record => Some 25%Z
  | invalid_log_spill => Some 26%Z
  | invalid_log_offset => Some 27%Z
  | invalid_log_index => Some 28%Z
  | invalid_spill_size => Some 29%Z
  | uid_mismatch => Some 30%Z
  | appnum_mismatch => Some 31%Z
  | key_size_mismatch => Some 32%Z
  | salt_mismatch => Some 33%Z
  | pepper_mismatch => Some 34%Z
  | block_size_mismatch => Some 35%Z
  | orphaned_value => Some 36%Z
  | missing_value => Some 37%Z
  | size_mismatch => Some 38%Z
  | duplicate_value => Some 39%Z
  | _ => None
  end.

(** Categories are compared by address: nudb_category(), include/nudb/impl/error.ipp:13-170, and the two
    of Boost.System. *)
Inductive category := CNudb | CGeneric | CSystem.
Definition same_cat (a b : category) : bool :=
  match a, b with CNudb, CNudb | CGeneric, CGeneric | CSystem, CSystem => true | _, _ => false end.

(** error_code and error_condition: a value and a category. *)
Record ecode := ECode { ec_value : Z; ec_cat : category }.
Record econd := ECond { cd_value : Z; cd_cat : category }.

(** make_error_code(): include/nudb/error.hpp:242-247. *)
Definition make_error_code (v : Z) : ecode := ECode v CNudb.

(** error_code::operator bool (Boost.System): the value is not 0. *)
Definition ec_failed (c : ecode) : bool := negb (ec_value c =? 0)%Z.

(** Comparison of two codes (Boost.System): value and category. *)
Definition code_eq (a b : ecode) : bool := (ec_value a =? ec_value b)%Z && same_cat (ec_cat a) (ec_cat b).
Definition cond_eq (a b : econd) : bool := (cd_value a =? cd_value b)%Z && same_cat (cd_cat a) (cd_cat b).

(** default_error_condition(): include/nudb/impl/error.ipp:150-154 for the library's category; the generic
    category of Boost.System gives itself, the system category what the operating system's
    number means, [sys], if anything. *)
Definition default_condition (sys : Z -> option Z) (cat : category) (v : Z) : econd :=
  match cat with
  | CNudb => ECond v CNudb
  | CGeneric => ECond v CGeneric
  | CSystem => match sys v with Some g => ECond g CGeneric | None => ECond v CSystem end
  end.

(** equivalent(int, error_condition): include/nudb/impl/error.ipp:156-161; Boost's categories use the
    default implementation. *)
Definition equivalent_cond (sys : Z -> option Z) (cat : category) (v : Z) (c : econd) : bool :=
  match cat with
  | CNudb => (cd_value c =? v)%Z && same_cat (cd_cat c) CNudb
  | _ => cond_eq (default_condition sys cat v) c
  end.

(** equivalent(error_code, int): include/nudb/impl/error.ipp:163-167; the default implementation is the
    same. *)
Definition equivalent_code (cat : category) (c : ecode) (v : Z) : bool :=
  (ec_value c =? v)%Z && same_cat (ec_cat c) cat.

(** [ec == condition] (Boost.System), as in [ec == errc::no_such_file_or_directory] of
    include/nudb/impl/recover.ipp:82 and rekey.ipp:71: either category says they are equivalent. *)
Definition code_is (sys : Z -> option Z) (c : ecode) (d : econd) : bool :=
  equivalent_cond sys (ec_cat c) (ec_value c) d || equivalent_code (cd_cat d) c (cd_value d).

(** errc::no_such_file_or_directory is the condition ENOENT of the generic category. *)
Definition no_such_file : econd := ECond 2 CGeneric.

(** message(): include/nudb/impl/error.ipp:25-148.  The label [default:] stands with
    [case error::key_not_found:]. *)
Definition message (v : Z) : string :=
  match v with
  | 2%Z => "key already exists"
  | 3%Z => "short read"
  | 4%Z => "a log file exists"
  | 5%Z => "no key file"
  | 6%Z => "too many buckets"
  | 7%Z => "not a data file"
  | 8%Z => "not a key file"
  | 9%Z => "not a log file"
  | 10%Z => "different version"
  | 11%Z => "invalid key size"
  | 12%Z => "invalid block size"
  | 13%Z => "short key file"
  | 14%Z => "short bucket"
  | 15%Z => "short spill"
  | 16%Z => "short data record"
  | 17%Z => "short value"
  | 18%Z => "hash mismatch"
  | 19%Z => "invalid load factor"
  | 20%Z => "invalid capacity"
  | 21%Z => "invalid bucket count"
  | 22%Z => "invalid_bucket_size"
  | 23%Z => "incomplete data file header"
  | 24%Z => "incomplete key file header"
  | 25%Z => "invalid log record"
  | 26%Z => "invalid spill in log"
  | 27%Z => "invalid offset in log"
  | 28%Z => "invalid index in log"
  | 29%Z => "invalid size in spill"
  | 30%Z => "uid mismatch"
  | 31%Z => "appnum mismatch"
  | 32%Z => "key size mismatch"
  | 33%Z => "salt mismatch"
  | 34%Z => "pepper mismatch"
  | 35%Z => "block size mismatch"
  | 36%Z => "orphaned value"
  | 37%Z => "missing value"
  | 38%Z => "size mismatch"
  | 39%Z => "duplicate value"
  | _ => "key not found"
  end.
