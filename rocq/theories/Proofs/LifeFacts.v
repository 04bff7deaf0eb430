(** The life of a database from create() on. *)
From Verif Require Import Model.Bytes Model.Err Model.Field Model.Format Model.IO
  Model.BulkIO Model.Bucket Model.Pool Model.Recover Model.Create Model.Store Spec Model.History
  Proofs.BytesFacts Proofs.FieldFacts Proofs.IOFacts Proofs.PoolFacts Proofs.BucketFacts
  Proofs.BulkFacts Proofs.HashFacts Proofs.Table Proofs.Lookup Proofs.SplitFacts
  Proofs.CommitFacts Proofs.CommitInv Proofs.CommitRun Proofs.HeaderFacts Proofs.StoreInv
  Proofs.OpenFacts Proofs.HistoryFacts.

Definition dbp_of (a : create_args) : dbp :=
  DbP (ca_uid a) (ca_appnum a) (ca_key_size a) (ca_salt a) (ca_block_size a)
    match lf_field (ca_load_factor a) with Some f => f | None => 0 end false 1.

Lemma good_args_ok a : good_args a ->
  dbp_ok (dbp_of a) /\ lf_invalid (ca_load_factor a) = false /\
  lf_field (ca_load_factor a) = Some (db_load_factor (dbp_of a)) /\
  args_of (dbp_of a) (ca_load_factor a) = a.
Proof.
  intros (H1 & H2 & H3 & H4 & H5 & H6).
  destruct a as [an ui sa ks bs lf]. unfold dbp_of, dbp_ok, args_of.
  cbn [ca_uid ca_appnum ca_key_size ca_salt ca_block_size ca_load_factor
       db_uid db_appnum db_key_size db_salt db_block_size db_load_factor db_mixed db_base] in *.
  destruct lf as [|n d]; [contradiction|].
  change (2 ^ 64) with 18446744073709551616 in *. cbn [lf_field lf_invalid].
  assert (Hc : 1 <= bucket_capacity bs).
  { unfold bucket_capacity, key_hdr_size. replace (bs <? 104) with false by lia.
    replace (bs <? 2 + 6) with false by lia. cbn [orb]. apply N.div_le_lower_bound; lia. }
  assert (X : (1 <= 65536 * n / Z.pos d)%Z) by (apply Z.div_le_lower_bound; lia).
  splits; auto; try lia.
Qed.

Lemma lived_start e a : good_args a -> iter_ok e ->
  exists s w, (forall l, life e a l = do_ops e s l w) /\ sinv e (dbp_of a) [] [([], 0)] s w /\
    pl_map (st_p1 s) = [] /\ st_frac s = db_thresh (dbp_of a) / 2.
Proof.
  intros Ha Hit. destruct (good_args_ok a Ha) as (Hp & Hi & Hf & Haa).
  pose proof (create_ok e (dbp_of a) _ no_files Hp Hi Hf eq_refl eq_refl eq_refl) as Hc.
  rewrite Haa in Hc.
  destruct (open_ok e (dbp_of a) Hp [] [([], 0)] (new_world e (dbp_of a)) (new_disk e _ Hp)) as [Ho Hs].
  { right. exists []. split; [reflexivity|]. reflexivity. }
  do 2 eexists. splits; [|apply Hs|reflexivity|reflexivity].
  intros l. unfold life. rewrite Hc, Ho. reflexivity.
Qed.

Lemma lived_ok e a l : good_args a -> iter_ok e -> Forall (valid_op (ca_key_size a)) l ->
  (exists recs T s w, life e a l = (w, Some s, spec_outs sempty l) /\
    sinv e (dbp_of a) recs T s w /\ szinv recs s (inserts l) (insert_bytes l) /\
    (forall k, spec_final sempty l k = abs recs s k) /\
    (forall k, spec_durable sempty sempty l k = kfind (kvs recs) k) /\
    blen (kvs recs) + blen (pl_map (st_p1 s)) = inserted (spec_outs sempty l)) \/
  (~ small_history l /\ exists w n, (n < length l)%nat /\ near_limit w /\
    life e a l = (w, None, firstn n (spec_outs sempty l) ++ [OAborted])).
Proof.
  intros Ha Hit Hv. destruct (good_args_ok a Ha) as (Hp & _).
  destruct (lived_start e a Ha Hit) as (s & w & Hl & Hs & He & Hf).
  rewrite Hl.
  destruct (do_ops_ok e (dbp_of a) Hp Hit l [] [([], 0)] s w 0 0 sempty sempty Hs) as [(x & T & s' & w' & X)|[Hb X]].
  - split; rewrite He; reflexivity.
  - exact Hv.
  - intros k. unfold abs, pool_find. rewrite He. reflexivity.
  - reflexivity.
  - rewrite He in X. change (blen (kvs [])) with 0 in X. change (blen (@nil pelem)) with 0 in X.
    left. rewrite !N.add_0_l in X. do 4 eexists. exact X.
  - right. rewrite !N.add_0_l in Hb. split; [|exact X]. unfold too_long, small_history in *. lia.
Qed.

(** What is known about a store at the end of a life. *)
Lemma lived_more e a l w s : good_args a -> iter_ok e -> Forall (valid_op (ca_key_size a)) l ->
  lived e a l w s ->
  exists recs T, life e a l = (w, Some s, spec_outs sempty l) /\
    sinv e (dbp_of a) recs T s w /\ szinv recs s (inserts l) (insert_bytes l) /\
    (forall k, spec_final sempty l k = abs recs s k) /\
    (forall k, spec_durable sempty sempty l k = kfind (kvs recs) k) /\
    blen (kvs recs) + blen (pl_map (st_p1 s)) = inserted (spec_outs sempty l).
Proof.
  intros Ha Hit Hv (os & Hl). destruct (lived_ok e a l Ha Hit Hv) as [(recs & T & s' & w' & X & Y)|[_ (w' & n & _ & _ & X)]].
  - rewrite Hl in X. inversion X; subst. exists recs, T. split; auto.
  - rewrite Hl in X. discriminate.
Qed.

Lemma lived_inv e a l w s : good_args a -> iter_ok e -> Forall (valid_op (ca_key_size a)) l ->
  lived e a l w s ->
  exists recs T, sinv e (dbp_of a) recs T s w /\ szinv recs s (inserts l) (insert_bytes l) /\
    (forall k, spec_final sempty l k = abs recs s k) /\ life e a l = (w, Some s, spec_outs sempty l).
Proof.
  intros Ha Hit Hv Hl. destruct (lived_more e a l w s Ha Hit Hv Hl) as (recs & T & A & B & C & D & _).
  exists recs, T. auto.
Qed.
