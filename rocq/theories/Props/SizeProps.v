(** C64: sizes of files and tables. *)
From Verif Require Import Model.Bytes Model.Err Model.Field Model.Format Model.IO Model.BulkIO
  Model.Bucket Model.Pool Model.Recover Model.Create Model.Store Model.History Model.Crash Model.Events
  Spec SpecCrash Proofs.BytesFacts Proofs.SafeFacts Proofs.Witness Proofs.SizeFacts Props.Samples Props.CrashSamples.
Open Scope N_scope.

(** C64.  After any calls, stops of the machine and recoveries, with [pairs] the pairs that are
    saved and [B] the number of buckets: each pair takes at least 7 bytes and its key in the
    data file, which is never longer than 2^48 + 2^33 bytes; there are at most as many buckets
    as pairs, and one; the key file is shorter than 2^62 bytes, so positions in both files fit
    into off_t; and the assertion of bucket_index() (include/nudb/detail/bucket.hpp:30) holds
    as long as there are fewer than 2^32 pairs. *)
Theorem C64_sizes : forall e a M0 M evs os,
  good_args a -> iter_ok e -> started e a M0 -> happened e M0 evs os M ->
  Forall (fun ev => valid_op (ca_key_size a) (event_op ev)) evs ->
  exists dat key pairs B m d, spec_events sempty sempty evs os m d /\
    w_dat (m_files M) = Some dat /\ w_key (m_files M) = Some key /\
    NoDup (map fst pairs) /\ (forall k v, d k = Some v <-> In (k, v) pairs) /\
    92 + blen pairs * (7 + ca_key_size a) <= blen dat /\ blen dat < 2 ^ 48 + 2 ^ 33 /\
    blen key = (B + 1) * ca_block_size a /\ 1 <= B /\ B <= 1 + blen pairs /\ blen key < 2 ^ 62 /\
    (blen pairs < 2 ^ 32 -> st_modulus (m_store M) <= 2 ^ 32).
Proof. exact events_sizes. Qed.

(** A history that meets the hypotheses; what it has saved, and the sizes. *)
Example C64_sample : exists M0 S,
  started sample_env sample_args M0 /\
  happened sample_env M0 (map act_event pending_acts) pending_outs (Mach pending_files S pending_store) /\
  Forall (fun ev => valid_op (ca_key_size sample_args) (event_op ev)) (map act_event pending_acts) /\
  match pending_files with
  | World (Some d) (Some k) _ => (blen d, blen k, st_buckets pending_store, st_modulus pending_store) = (558, 1456, 13, 16)
  | _ => False
  end.
Proof.
  destruct (history_happened _ _ _ _ _ _ pending_computed) as (M0 & S & Hs & Hh & _).
  exists M0, S. split; [exact Hs|]. split; [exact Hh|]. split; [exact pending_valid|]. vm_compute. auto.
Qed.

Print Assumptions C64_sizes.
