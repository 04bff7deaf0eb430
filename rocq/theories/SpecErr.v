(** Which errors a function may report. *)
From Verif Require Import Model.Bytes Model.Err Model.IO Model.Bucket Model.Store.

(** Errors of file operations: those of the operating system, and short_read (the File
    concept, include/nudb/concepts.hpp:60-115). *)
Definition of_file (e : err) : Prop :=
  match e with
  | short_read | ENoEnt | EExist | EBadF | EIO _ | EAppend => True
  | _ => False
  end.

(** Outcomes of the model that are not error codes: a failed assertion, an exception,
    undefined behaviour, a loop without end. *)
Definition not_code (e : err) : Prop :=
  match e with EAssert | EThrow | EUB | EDiverge => True | _ => False end.

(** [p] may end with [a]: file operations may be answered with any data, any number and
    any error of a file operation, whether or not a file system could give them. *)
Inductive may_end {A} : prog A -> A -> Prop :=
| me_ret a : may_end (Ret a) a
| me_ok o k n d a : may_end (k (ROk n d)) a -> may_end (Do o k) a
| me_err o k e a : of_file e -> may_end (k (RErr e)) a -> may_end (Do o k) a.

(** A call of [p] may report the error [e]. *)
Definition reports {A} (p : prog (res A)) (e : err) : Prop := may_end p (Er e) /\ ~ not_code e.

(** [p] reports nothing but errors of file operations and those in [l]. *)
Definition only {A} (l : list err) (p : prog (res A)) : Prop :=
  forall e, reports p e -> of_file e \/ In e l.

(** What is wrong with a header. *)
Definition dat_hdr_errs : list err := [not_data_file; different_version; invalid_key_size].
Definition key_hdr_errs : list err :=
  [not_key_file; different_version; invalid_key_size; hash_mismatch; invalid_load_factor;
   invalid_capacity; invalid_bucket_count].
Definition log_hdr_errs : list err :=
  [not_log_file; different_version; hash_mismatch; invalid_key_size].
(** Headers that do not belong together. *)
Definition dat_key_errs : list err := [uid_mismatch; appnum_mismatch; key_size_mismatch].
Definition key_log_errs : list err := dat_key_errs ++ [salt_mismatch; block_size_mismatch].

Definition create_errs : list err := [invalid_key_size; invalid_block_size; invalid_load_factor].
Definition recover_errs : list err :=
  dat_hdr_errs ++ key_hdr_errs ++ log_hdr_errs ++ key_log_errs ++
  [no_key_file; invalid_log_spill; invalid_log_index].
Definition fetch_errs : list err := [key_not_found; invalid_bucket_size].
Definition insert_errs : list err := [key_exists; invalid_bucket_size].
Definition flush_errs : list err := [invalid_bucket_size].
Definition rekey_errs : list err := dat_hdr_errs ++ [log_file_exists].
Definition verify_errs : list err :=
  dat_hdr_errs ++ key_hdr_errs ++ dat_key_errs ++
  [invalid_bucket_size; short_spill; short_data_record; short_value; invalid_spill_size;
   orphaned_value; missing_value; size_mismatch].

(** Codes of include/nudb/error.hpp that no function sets in a way that a caller sees. *)
Definition unused : list err :=
  [too_many_buckets; short_key_file; short_bucket; incomplete_data_file_header;
   incomplete_key_file_header; invalid_log_record; invalid_log_offset; pepper_mismatch;
   duplicate_value].

(** The states of a store in use: opened, then any inserts and flushes, with any answers
    of the file operations (fetches do not change it). *)
Inductive used (e : env) : store -> Prop :=
| u_open s : may_end (store_open e) (Ok s) -> used e s
| u_insert s k v s' : used e s -> may_end (store_insert e s k v) (Ok s') -> used e s'
| u_flush s s' : used e s -> may_end (store_flush e s) s' -> used e s'.
