(** C61, C62: how many file operations flushes and lookups make. *)
From Verif Require Import Model.Bytes Model.Err Model.Field Model.Format Model.IO Model.BulkIO
  Model.Bucket Model.Pool Model.Recover Model.Create Model.Store Model.History
  Spec SpecFormat SpecDisk SpecVisit SpecFetch SpecCost Proofs.BytesFacts Proofs.HistoryFacts Proofs.StoreInv
  Proofs.LifeFacts Proofs.WrittenFacts Proofs.DiskFacts Proofs.CostFacts Proofs.LookupCost Props.Samples.
Open Scope N_scope.

(** C61.  A flush of [n] pairs reads at most [2 n] and writes at most [3 n] buckets of the
    key file, whatever the size of the database, and calls sync at most five times and
    truncate at most once; whatever the answers of the file system, and wherever it is
    stopped. *)
Theorem C61_flush_operations : forall e s l,
  iter_ok e -> 8 <= kh_block_size (st_kh s) -> may_run l (store_flush e s) ->
  let n := blen (pl_map (st_p1 s)) in
  spent key_reads l <= 2 * n /\ spent key_writes l <= 3 * n /\ spent syncs l <= 5 /\ spent truncations l <= 1.
Proof.
  intros e s l Hit Hbs Hm n. repeat split.
  - pose proof (spent_flush e key_reads 1 0 0 0 0 Hit) as X. specialize (X ltac:(intros [] Ho; try destruct f; simpl in *; try discriminate; auto; contradiction)).
    specialize (X (fun _ => eq_refl) (fun _ _ => eq_refl) (fun _ _ _ => eq_refl) (fun _ => eq_refl) (fun _ _ => eq_refl) (fun _ _ _ => eq_refl) s l Hbs Hm).
    cbv zeta in X. fold n in X. lia.
  - pose proof (spent_flush e key_writes 0 1 0 0 0 Hit) as X. specialize (X ltac:(intros [] Ho; try destruct f; simpl in *; try discriminate; auto; contradiction)).
    specialize (X (fun _ => eq_refl) (fun _ _ => eq_refl) (fun _ _ _ => eq_refl) (fun _ => eq_refl) (fun _ _ => eq_refl) (fun _ _ _ => eq_refl) s l Hbs Hm).
    cbv zeta in X. fold n in X. lia.
  - pose proof (spent_flush e syncs 0 0 1 0 0 Hit) as X. specialize (X ltac:(intros [] Ho; try destruct f; simpl in *; try discriminate; auto; contradiction)).
    specialize (X (fun _ => eq_refl) (fun _ _ => eq_refl) (fun _ _ _ => eq_refl) (fun _ => eq_refl) (fun _ _ => eq_refl) (fun _ _ _ => eq_refl) s l Hbs Hm).
    cbv zeta in X. fold n in X. lia.
  - pose proof (spent_flush e truncations 0 0 0 1 0 Hit) as X. specialize (X ltac:(intros [] Ho; try destruct f; simpl in *; try discriminate; auto; contradiction)).
    specialize (X (fun _ => eq_refl) (fun _ _ => eq_refl) (fun _ _ _ => eq_refl) (fun _ => eq_refl) (fun _ _ => eq_refl) (fun _ _ _ => eq_refl) s l Hbs Hm).
    cbv zeta in X. fold n in X. lia.
Qed.

(** And the log needs no more than its header and two blocks, with 8 bytes each, per pair. *)
Theorem C61_log_size : forall e s l,
  iter_ok e -> 8 <= kh_block_size (st_kh s) -> may_run l (store_flush e s) ->
  spent log_bytes l <= 62 + 2 * blen (pl_map (st_p1 s)) * (8 + kh_block_size (st_kh s)).
Proof.
  intros e s l Hit Hbs Hm.
  pose proof (spent_flush e log_bytes 0 0 0 0 1 Hit) as X. specialize (X ltac:(intros [] Ho; try destruct f; simpl in *; try discriminate; auto; contradiction)).
  specialize (X (fun _ => eq_refl) (fun _ _ => eq_refl) (fun _ _ _ => eq_refl) (fun _ => eq_refl) (fun _ _ => eq_refl)
    (fun _ _ d => eq_sym (N.mul_1_l (blen d))) s l Hbs Hm). cbv zeta in X. lia.
Qed.

(** What is carried out when nothing fails is among this. *)
Theorem C61_carried_out : forall e s w, may_run (carried_out (store_flush e s) w) (store_flush e s).
Proof. intros. apply carried_out_may. Qed.

(** A flush of one pair that meets the bounds, and one of 40 pairs to an empty database. *)
Example C61_sample :
  match life sample_env sample_args (sample_inserts 28 ++ [OpFlush; OpInsert (sample_key 77) [1]]) with
  | (w, Some s, _) =>
    let l := carried_out (store_flush sample_env s) w in
    (blen (pl_map (st_p1 s)), spent key_reads l, spent key_writes l, spent syncs l, spent truncations l, spent log_bytes l)
      = (1, 2, 3, 5, 1, 238)
  | _ => False
  end /\
  match life sample_env sample_args (sample_inserts 40) with
  | (w, Some s, _) =>
    let l := carried_out (store_flush sample_env s) w in
    (blen (pl_map (st_p1 s)), spent key_reads l, spent key_writes l, spent syncs l, spent truncations l, spent log_bytes l)
      = (40, 1, 17, 5, 1, 78)
  | _ => False
  end.
Proof. vm_compute. auto. Qed.

(** C62.  A fetch reads one bucket of the key file, then at most one spill record for every
    [capacity] saved keys that belong to the bucket of the key, and one value for every
    saved key with the same hash.  It does not depend on the size of the database in any
    other way.  [B] is the number of buckets in the key file. *)
Theorem C62_fetch_reads : forall e a l w s key B k,
  good_args a -> iter_ok e -> Forall (valid_op (ca_key_size a)) l -> lived e a l w s ->
  w_key w = Some key -> blen key = (B + 1) * ca_block_size a ->
  let H := hash (e_hasher e) (ca_salt a) in
  let saved := written sempty [] [] l in
  let room := blen (filter (fun kv => home B (H (fst kv)) =? home B (H k)) saved) in
  let alike := blen (filter (fun kv => H (fst kv) =? H k) saved) in
  nreads (store_fetch e s k) w <= 1 + room / capacity (ca_block_size a) + alike.
Proof. exact lived_fetch_cost. Qed.

(** The same for insert. *)
Theorem C62_insert_reads : forall e a l w s key B k v,
  good_args a -> iter_ok e -> Forall (valid_op (ca_key_size a)) l -> lived e a l w s ->
  w_key w = Some key -> blen key = (B + 1) * ca_block_size a ->
  let H := hash (e_hasher e) (ca_salt a) in
  let saved := written sempty [] [] l in
  let room := blen (filter (fun kv => home B (H (fst kv)) =? home B (H k)) saved) in
  let alike := blen (filter (fun kv => H (fst kv) =? H k) saved) in
  nreads (store_insert e s k v) w <= 1 + room / capacity (ca_block_size a) + alike.
Proof. intros e a l w s key B k v Ha Hit Hv Hl Hk HB. exact (lived_insert_cost e a l w s key B k Ha Hit Hv Hl Hk HB v). Qed.

(** A key whose value is not saved yet costs no read at all. *)
Theorem C62_pending : forall e s k v w,
  st_ec s = None -> pool_find (st_p1 s) k = Some v -> nreads (store_fetch e s k) w = 0.
Proof. exact pending_fetch_cost. Qed.

(** With another hash function: every key alone with its hash: two reads. *)
Definition sum_env : env := Env (fun seed k => 65536 * fold_left N.add k 0 + seed) (@rev (N * bytes)) [1; 2; 3].
Example C62_sample :
  match life sample_env sample_args sample_life, life sum_env sample_args (sample_inserts 12 ++ [OpFlush]) with
  | (w, Some s, _), (w', Some s', _) =>
    (st_buckets s, nreads (store_fetch sample_env s (sample_key 17)) w,
      nreads (store_insert sample_env s (sample_key 80) [1]) w,
      nreads (store_fetch sum_env s' (sample_key 3)) w') = (13, 3, 5, 2)
  | _, _ => False
  end.
Proof. vm_compute. auto. Qed.

Print Assumptions C61_flush_operations.
Print Assumptions C61_log_size.
Print Assumptions C61_carried_out.
Print Assumptions C62_fetch_reads.
Print Assumptions C62_insert_reads.
Print Assumptions C62_pending.
