(** C59, C60: the attributes of a database and what an open store keeps in memory. *)
From Verif Require Import Model.Bytes Model.Err Model.Field Model.Format Model.IO Model.BulkIO
  Model.Bucket Model.Pool Model.Recover Model.Create Model.Store Model.History Model.Crash Model.Events
  Model.Rekey Model.RekeyLife Model.Attrs
  Spec SpecCrash SpecAttrs Proofs.BytesFacts Proofs.IOFacts Proofs.SafeFacts Proofs.Witness
  Proofs.RekeyTheorems Proofs.AttrsFacts Props.Samples Props.CrashSamples Props.RekeyProps.
Open Scope N_scope.

(** C59.  After any calls, stops of the machine and recoveries, the open store reports the
    appnum, key size and block size given to create(). *)
Theorem C59_attributes : forall e a M0 evs os M,
  good_args a -> iter_ok e -> started e a M0 -> happened e M0 evs os M ->
  Forall (fun ev => valid_op (ca_key_size a) (event_op ev)) evs ->
  store_appnum (m_store M) = ca_appnum a /\ store_key_size (m_store M) = ca_key_size a /\
  store_block_size (m_store M) = ca_block_size a.
Proof. exact events_attrs. Qed.

(** C59.  The header of the data file and the first block of the key file are still, byte for
    byte, those written by create(). *)
Theorem C59_headers : forall e a M0 evs os M w1,
  good_args a -> iter_ok e -> started e a M0 -> happened e M0 evs os M ->
  Forall (fun ev => valid_op (ca_key_size a) (event_op ev)) evs ->
  run (create e a) no_files = (w1, Ok tt) ->
  exists d1 k1 d k, w_dat w1 = Some d1 /\ w_key w1 = Some k1 /\
    w_dat (m_files M) = Some d /\ w_key (m_files M) = Some k /\
    btake 92 d = btake 92 d1 /\ btake (ca_block_size a) k = btake (ca_block_size a) k1.
Proof. exact events_head. Qed.

(** C59.  A program that also replaces its key file, any number of times: appnum, key size and
    the header of the data file stay, the block size is the one given to the last rekey(). *)
Theorem C59_rekey : forall e a l w s os,
  good_args a -> iter_ok e -> Forall (valid_xop (ca_key_size a)) l ->
  xlife e a l = (w, Some s, os) ->
  store_appnum s = ca_appnum a /\ store_key_size s = ca_key_size a /\
  store_block_size s = last_block_size (ca_block_size a) l /\
  forall w1, run (create e a) no_files = (w1, Ok tt) ->
    exists d1 d, w_dat w1 = Some d1 /\ w_dat w = Some d /\ btake 92 d = btake 92 d1.
Proof. exact xlife_attrs. Qed.

(** C60.  Between calls an open store holds in memory exactly the pairs inserted since the
    last flush or open: none of what is in the files, and no buckets. *)
Theorem C60_memory : forall e a l w s,
  good_args a -> iter_ok e -> Forall (valid_op (ca_key_size a)) l -> lived e a l w s ->
  st_p0 s = pool_empty /\ st_c1 s = [] /\
  forall k, option_map pe_data (pool_find (st_p1 s) k) =
    unsaved (spec_final sempty l) (spec_durable sempty sempty l) k.
Proof. exact lived_memory. Qed.

(** C60.  The same when the machine is stopped in between. *)
Theorem C60_memory_after_stops : forall e a M0 evs os M,
  good_args a -> iter_ok e -> started e a M0 -> happened e M0 evs os M ->
  Forall (fun ev => valid_op (ca_key_size a) (event_op ev)) evs ->
  exists m d, spec_events sempty sempty evs os m d /\
    st_p0 (m_store M) = pool_empty /\ st_c1 (m_store M) = [] /\
    forall k, option_map pe_data (pool_find (st_p1 (m_store M)) k) = unsaved m d k.
Proof. exact events_memory. Qed.

(** ** Samples *)
Example C59_sample :
  match xlife sample_env sample_args sample_xlife with
  | (_, Some s, _) => store_appnum s = 7 /\ store_key_size s = 2 /\ store_block_size s = 104
  | _ => False
  end /\
  match xlife sample_env sample_args (firstn 35 sample_xlife) with
  | (_, Some s, _) => store_block_size s = 120
  | _ => False
  end.
Proof. vm_compute. auto. Qed.

(** A history that meets the hypotheses of the theorems about events; its data file has grown. *)
Example C59_events_sample : exists M0 S,
  started sample_env sample_args M0 /\
  happened sample_env M0 (map act_event pending_acts) pending_outs (Mach pending_files S pending_store) /\
  Forall (fun ev => valid_op (ca_key_size sample_args) (event_op ev)) (map act_event pending_acts) /\
  store_appnum pending_store = 7 /\ store_key_size pending_store = 2 /\ store_block_size pending_store = 104 /\
  match w_dat pending_files with Some d => 92 < blen d | None => False end.
Proof.
  destruct (history_happened _ _ _ _ _ _ pending_computed) as (M0 & S & Hs & Hh & _).
  exists M0, S. split; [exact Hs|]. split; [exact Hh|]. split; [exact pending_valid|]. vm_compute. auto.
Qed.

Example C60_sample :
  option_map pe_data (pool_find (st_p1 pending_store) (sample_key 77)) = Some [7; 7] /\
  option_map pe_data (pool_find (st_p1 pending_store) (sample_key 3)) = None /\
  let l := sample_inserts 30 ++ [OpFlush; OpInsert (sample_key 77) [7; 7]; OpInsert (sample_key 78) [8]] in
  unsaved (spec_final sempty l) (spec_durable sempty sempty l) (sample_key 77) = Some [7; 7] /\
  unsaved (spec_final sempty l) (spec_durable sempty sempty l) (sample_key 3) = None /\
  spec_final sempty l (sample_key 3) = Some (sample_val 3).
Proof. vm_compute. repeat split. Qed.

Print Assumptions C59_attributes.
Print Assumptions C59_headers.
Print Assumptions C59_rekey.
Print Assumptions C60_memory.
Print Assumptions C60_memory_after_stops.
