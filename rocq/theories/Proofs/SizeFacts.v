(** Sizes of files and tables. *)
From Verif Require Import Model.Bytes Model.Err Model.Field Model.Format Model.IO
  Model.BulkIO Model.Bucket Model.Pool Model.Recover Model.Create Model.Store Spec SpecCrash Model.History
  Model.Crash Model.Events
  Proofs.BytesFacts Proofs.FieldFacts Proofs.IOFacts Proofs.PoolFacts Proofs.BucketFacts
  Proofs.BulkFacts Proofs.HashFacts Proofs.Table Proofs.Lookup Proofs.SplitFacts
  Proofs.CommitFacts Proofs.CommitInv Proofs.CommitRun Proofs.HeaderFacts Proofs.StoreInv
  Proofs.OpenFacts Proofs.HistoryFacts Proofs.LifeFacts Proofs.DiskFacts Proofs.EventFacts.
Opaque loop.

Lemma enc_recs_min p recs : Forall (drec_ok p) recs -> blen (kvs recs) * (7 + db_key_size p) <= blen (enc_recs recs).
Proof.
  induction 1 as [|r recs Hr H IH]; [apply N.le_0_l|]. unfold enc_recs in *. cbn [flat_map kvs].
  rewrite blen_app. destruct r as [k v|es sp]; cbn [enc_rec] in *.
  - destruct Hr as [Hr|[_ []]]. destruct Hr as (H1 & H2 & _). rewrite blen_cons, !blen_app, blen_wr48, H1. nia.
  - lia.
Qed.

Section Events.
Variables (e : env) (a : create_args) (M0 M : mach) (evs : list event) (os : list out).
Hypothesis Ha : good_args a.
Hypothesis Hit : iter_ok e.
Hypothesis Hs : started e a M0.
Hypothesis Hh : happened e M0 evs os M.
Hypothesis Hv : Forall (fun ev => valid_op (ca_key_size a) (event_op ev)) evs.

Lemma events_sizes :
  exists dat key pairs B m d, spec_events sempty sempty evs os m d /\
    w_dat (m_files M) = Some dat /\ w_key (m_files M) = Some key /\
    NoDup (map fst pairs) /\ (forall k v, d k = Some v <-> In (k, v) pairs) /\
    92 + blen pairs * (7 + ca_key_size a) <= blen dat /\ blen dat < 2 ^ 48 + 2 ^ 33 /\
    blen key = (B + 1) * ca_block_size a /\ 1 <= B /\ B <= 1 + blen pairs /\ blen key < 2 ^ 62 /\
    (blen pairs < 2 ^ 32 -> st_modulus (m_store M) <= 2 ^ 32).
Proof using All.
  destruct (events_ok _ _ _ _ _ _ Ha Hit Hs Hh Hv) as (recs & T & m & d & (Hi & _) & Hm & Hd & He).
  destruct (good_args_ok a Ha) as (Hp & _). clear Hh Hs.
  pose proof (si_disk _ _ _ _ _ _ Hi) as Hk.
  pose proof (data_short e _ recs Hp (dk_recs _ _ _ _ _ Hk) (dk_ents _ _ _ _ _ Hk) (dk_low _ _ _ _ _ Hk)) as Hshort.
  pose proof (enc_recs_min _ _ (dk_recs _ _ _ _ _ Hk)) as Hmin.
  destruct (disk_structure e _ _ _ _ _ Hp Hi) as (d1 & k1 & A1 & B1 & B2 & _).
  destruct (disk_pow e _ Hp _ _ _ Hk) as (P1 & _ & P2 & _).
  rewrite (si_buckets _ _ _ _ _ _ Hi) in B2.
  exists (db_hdr (dbp_of a) ++ enc_recs recs), k1, (kvs recs), (blen T), m, d.
  pose proof (dk_B _ _ _ _ _ Hk) as HB. change (db_base (dbp_of a)) with 1 in HB.
  assert (Hlen : 92 + blen (kvs recs) * (7 + ca_key_size a) <= blen (db_hdr (dbp_of a) ++ enc_recs recs)).
  { rewrite blen_app, p_hdr. apply N.add_le_mono; [reflexivity|exact Hmin]. }
  assert (Hks : 1 <= ca_key_size a /\ ca_block_size a <= 65535) by (unfold good_args in Ha; lia).
  splits; auto.
  - exact (dk_dat _ _ _ _ _ Hk).
  - apply Hk.
  - intros k v. rewrite Hd. apply kfind_In. apply Hk.
  - rewrite B2. assert (X : blen (kvs recs) * 8 < 281483566645248) by nia.
    change (2 ^ 62) with 4611686018427387904. cbn [dbp_of db_block_size]. 
    assert (Y : blen T <= 35185445830657) by lia. nia.
  - intros Hlt. rewrite (si_modulus _ _ _ _ _ _ Hi). destruct P2 as (k & -> & P3 & P4).
    assert (2 ^ k < 2 ^ 33) by (change (2 ^ 33) with (2 * 2 ^ 32); lia).
    apply N.pow_lt_mono_r_iff in H; [|lia]. apply N.pow_le_mono_r; lia.
Qed.
End Events.
