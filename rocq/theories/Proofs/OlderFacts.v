(** A key file with a data file that has grown since. *)
From Verif Require Import Model.Bytes Model.Err Model.Field Model.Format Model.IO Model.BulkIO
  Model.Bucket Model.Pool Model.Recover Model.Create Model.Store Spec Model.History Model.Crash
  Proofs.BytesFacts Proofs.FieldFacts Proofs.IOFacts Proofs.PoolFacts Proofs.BucketFacts
  Proofs.BulkFacts Proofs.HashFacts Proofs.Table Proofs.Lookup Proofs.SplitFacts
  Proofs.CommitFacts Proofs.CommitInv Proofs.CommitRun Proofs.HeaderFacts Proofs.StoreInv
  Proofs.OpenFacts Proofs.HistoryFacts Proofs.LifeFacts Proofs.DiskFacts Proofs.SafeFacts Proofs.CommitOps
  Proofs.ConcFacts Proofs.CrashTheorems.
Opaque loop.

Definition anykey (off len : N) : Prop := True.

Lemma reads_run_back {A} (p : prog A) w a : reads anykey w p a -> run p w = (w, a).
Proof.
  intros H. induction H as [|f off len k d a Hal Hr H IH]; [reflexivity|].
  rewrite run_do, (readable_exec _ _ _ _ _ Hr). exact IH.
Qed.

Lemma same_grown d x k l : same anykey (World (Some d) k l) (World (Some (d ++ x)) k l).
Proof.
  intros f off len c [->|[-> _]] (y & Hy & -> & Hl); [|exists y; auto].
  change (Some d = Some y) in Hy. injection Hy as Hy. subst y. exists (d ++ x). split; [reflexivity|].
  destruct Hl as [->|Hl].
  - split; [|left; reflexivity]. unfold bsub, btake. cbn. reflexivity.
  - split; [symmetry; apply bsub_app_l; exact Hl|right; rewrite blen_app; lia].
Qed.

Lemma rd_store_fetch e s k : allops (rdop anykey) anyres (store_fetch e s k).
Proof.
  assert (E : forall A R (p : prog (res A)), allops (rdop anykey) (okres R) p -> allops (rdop anykey) anyres p).
  { intros A R p H. eapply ao_weaken; eauto. intros; exact I. }
  unfold store_fetch. destruct (st_ec s); [constructor; exact I|]. cbv zeta.
  destruct (pool_find (st_p1 s) k); [constructor; exact I|].
  destruct (pool_find (st_p0 s) k); [constructor; exact I|].
  destruct (cache_find _ _).
  - eapply E. apply rd_fetch_bucket.
  - eapply E. apply (ao_ebind (rdop anykey) anyres).
    + apply rd_bk_read. right. split; [reflexivity|exact I].
    + intros b _. apply rd_fetch_bucket.
Qed.

Lemma strict_store_fetch e s k : strict (store_fetch e s k).
Proof.
  unfold store_fetch. destruct (st_ec s); [constructor|]. cbv zeta.
  destruct (pool_find (st_p1 s) k); [constructor|].
  destruct (pool_find (st_p0 s) k); [constructor|].
  destruct (cache_find _ _).
  - apply strict_fetch_bucket.
  - apply strict_ebind; [apply strict_bk_read|]. intros b. apply strict_fetch_bucket.
Qed.

Section Older.
Variables (e : env) (p : dbp).
Hypothesis Hp : dbp_ok p.
Notation bs := (db_block_size p).

Lemma older_open recs T w x l : disk e p recs T w -> l = None \/ l = Some [] ->
  let s := Store (db_kh e p (blen T)) pool_empty pool_empty [] (db_thresh p / 2) (db_thresh p)
             (blen T) (ceil_pow2 (blen T)) None in
  run (store_open e) (World (Some (db_hdr p ++ enc_recs recs ++ x)) (w_key w) l)
  = (World (Some (db_hdr p ++ enc_recs recs ++ x)) (w_key w) (Some []), Ok s).
Proof using All.
  intros Hd Hl s. set (D := db_hdr p ++ enc_recs recs ++ x).
  pose proof (dk_key _ _ _ _ _ Hd) as K. change (wget w FKey) with (w_key w) in K. rewrite K.
  set (kf := kfile bs (db_kb e p) T) in *.
  destruct (disk_pow e p Hp _ _ _ Hd) as (H1 & _).
  assert (Rk : forall y, run read_key_header (World (Some D) (Some kf) y)
               = (World (Some D) (Some kf) y, Ok (db_kh e p (blen T)))).
  { intros y. rewrite (run_read_key_header _ (db_kh e p 0) (flat_map (kblock bs) T)).
    - change (enc_key_header_block (db_kh e p 0) ++ flat_map (kblock bs) T) with (kfile bs (db_kb e p) T).
      rewrite (kfile_len e p Hp _ _ _ Hd). cbn [db_kh kh_block_size].
      rewrite buckets_of_kfile; [reflexivity|].
      pose proof (block_min bs (p_cap p Hp)). unfold key_hdr_size in *. lia.
    - apply p_key_fits. exact Hp.
    - reflexivity. }
  assert (Rd : forall y, run read_dat_header (World (Some D) (Some kf) y) = (World (Some D) (Some kf) y, Ok (db_dh p))).
  { intros y. apply (read_dh p Hp _ (enc_recs recs ++ x)). reflexivity. }
  assert (Hr : run (recover e) (World (Some D) (Some kf) l) = (World (Some D) (Some kf) None, Ok tt)).
  { unfold recover.
    erewrite run_ebind_ok by (eapply run_open; reflexivity).
    erewrite run_ebind_ok by (eapply run_size; reflexivity).
    rewrite (run_ebind_ok _ _ _ _ _ (Rd l)).
    rewrite (verify_dat_ok p Hp). erewrite run_ebind_ok by reflexivity.
    erewrite run_ebind_ok by (eapply run_open; reflexivity).
    erewrite run_ebind_ok by (eapply run_size; reflexivity).
    unfold kf. rewrite (key_size_gt e p Hp _ _ _ Hd). fold kf.
    destruct Hl as [->| ->].
    - erewrite run_bind_eq by (eapply run_open_none; reflexivity). reflexivity.
    - rewrite (run_bind_eq _ _ _ _ _ (run_open FLog (World (Some D) (Some kf) (Some [])) [] eq_refl)).
      erewrite run_ebind_ok by (eapply run_size; reflexivity).
      assert (X : run read_log_header (World (Some D) (Some kf) (Some [])) = (World (Some D) (Some kf) (Some []), Er short_read)).
      { unfold read_log_header. erewrite run_ebind_er; [reflexivity|].
        eapply run_read_short; [reflexivity|discriminate|]. reflexivity. }
      rewrite (run_bind_eq _ _ _ _ _ X). unfold recover_clear_log.
      erewrite run_ebind_ok by (eapply run_trunc; reflexivity).
      erewrite run_ebind_ok by (eapply run_sync; reflexivity).
      erewrite run_erase by reflexivity. reflexivity. }
  unfold store_open.
  rewrite (run_ebind_ok _ _ _ _ _ Hr).
  erewrite run_ebind_ok by (eapply run_open; reflexivity).
  erewrite run_ebind_ok by (eapply run_open; reflexivity).
  erewrite run_ebind_ok by (eapply run_create; reflexivity).
  change (wset (World (Some D) (Some kf) None) FLog (Some [])) with (World (Some D) (Some kf) (Some [])).
  rewrite (run_ebind_ok _ _ _ _ _ (Rd _)).
  rewrite (verify_dat_ok p Hp). erewrite run_ebind_ok by reflexivity.
  rewrite (run_ebind_ok _ _ _ _ _ (Rk _)).
  rewrite (verify_key_ok e p Hp _ H1). erewrite run_ebind_ok by reflexivity.
  rewrite (verify_dat_key_ok e p Hp _ H1). erewrite run_ebind_ok by reflexivity.
  cbv zeta. cbn [db_kh kh_buckets kh_load_factor kh_capacity].
  replace (blen T <? 1) with false by lia. reflexivity.
Qed.

Lemma older_fetch recs T w x k : disk e p recs T w -> blen k = db_key_size p ->
  let s := Store (db_kh e p (blen T)) pool_empty pool_empty [] (db_thresh p / 2) (db_thresh p)
             (blen T) (ceil_pow2 (blen T)) None in
  let w' := World (Some (db_hdr p ++ enc_recs recs ++ x)) (w_key w) (Some []) in
  run (store_fetch e s k) w' = (w', match kfind (kvs recs) k with Some v => Ok v | None => Er key_not_found end).
Proof using All.
  intros Hd Hk s w'.
  assert (Hd1 : disk e p recs T (World (Some (db_hdr p ++ enc_recs recs)) (w_key w) (Some []))).
  { destruct Hd. constructor; auto. }
  destruct (open_ok e p Hp recs T _ Hd1) as [_ Hs].
  { right. exists []. split; reflexivity. }
  fold s in Hs. change (wset (World (Some (db_hdr p ++ enc_recs recs)) (w_key w) (Some [])) FLog (Some []))
    with (World (Some (db_hdr p ++ enc_recs recs)) (w_key w) (Some [])) in Hs.
  pose proof (fetch_ok e p Hp recs T s _ k Hs Hk) as Hf.
  assert (Ea : abs recs s k = kfind (kvs recs) k) by (unfold abs, pool_find; reflexivity).
  rewrite Ea in Hf.
  apply reads_run_back. unfold w'. rewrite app_assoc. eapply reads_same; [apply same_grown|].
  eapply (reads_run anykey) in Hf; [|apply rd_store_fetch|apply strict_store_fetch|].
  - destruct Hf as [Hf _]. destruct (kfind (kvs recs) k); exact Hf.
  - intros er. destruct (kfind (kvs recs) k); [discriminate|]. congruence.
Qed.

Lemma do_ops_extends (Hit : iter_ok e) : forall l recs T s w i b m w' s' os,
  sinv e p recs T s w -> szinv recs s i b -> Forall (valid_op (db_key_size p)) l ->
  (forall k, m k = abs recs s k) ->
  do_ops e s l w = (w', Some s', os) ->
  exists x T', sinv e p (recs ++ x) T' s' w'.
Proof using All.
  induction l as [|c l IH]; intros recs T s w i b m w' s' os Hi Hz Hv Hm Hr.
  - injection Hr; intros; subst. exists [], T. rewrite app_nil_r. exact Hi.
  - inversion Hv as [|? ? Hc Hl]; subst. cbn [do_ops] in Hr.
    destruct (do_op_ok e p Hp Hit _ _ _ _ _ _ _ m Hi Hz Hc Hm) as [(x & T1 & s1 & w1 & Hr1 & Hi1 & Hz1 & Hm1 & _)|[Hbig (w1 & o1 & Hr1 & _)]].
    2:{ rewrite Hr1 in Hr. destruct o1; discriminate. }
    rewrite Hr1 in Hr.
    assert (Ho : snd (spec_step m c) <> OAborted) by apply spec_step_not_aborted.
    set (o := snd (spec_step m c)) in *.
    assert (Hr2 : exists os2, do_ops e s1 l w1 = (w', Some s', os2)).
    { destruct (do_ops e s1 l w1) as [[w2 s2] os2]. exists os2. destruct o; try congruence; injection Hr; intros; subst; reflexivity. }
    destruct Hr2 as (os2 & Hr2).
    destruct (IH _ _ _ _ _ _ _ _ _ _ Hi1 Hz1 Hl Hm1 Hr2) as (y & T2 & Hi2).
    exists (x ++ y), T2. rewrite app_assoc. exact Hi2.
Qed.
End Older.

(** Whatever was appended to the data file. *)
Lemma grown_data e a l w s d x lg : iter_ok e -> good_args a -> Forall (valid_op (ca_key_size a)) l ->
  lived e a l w s -> w_dat w = Some d -> lg = None \/ lg = Some [] ->
  let w1 := World (Some (d ++ x)) (w_key w) (Some []) in
  exists s1, run (store_open e) (World (Some (d ++ x)) (w_key w) lg) = (w1, Ok s1) /\
    forall k, blen k = ca_key_size a -> run (store_fetch e s1 k) w1 =
      (w1, match spec_durable sempty sempty l k with Some v => Ok v | None => Er key_not_found end).
Proof.
  intros Hit Ha Hv Hl Hd Hlg w1. destruct (good_args_ok a Ha) as (Hp & _).
  destruct (lived_more e a l w s Ha Hit Hv Hl) as (recs & T & _ & Hi & _ & _ & Hk & _).
  pose proof (si_disk _ _ _ _ _ _ Hi) as Hdk. pose proof (dk_dat _ _ _ _ _ Hdk) as Hd2.
  change (wget w FDat) with (w_dat w) in Hd2. rewrite Hd2 in Hd.
  assert (X : d = db_hdr (dbp_of a) ++ enc_recs recs) by congruence. subst d.
  unfold w1. rewrite <- app_assoc. eexists. split.
  - apply (older_open e _ Hp recs T w x lg Hdk Hlg).
  - intros k Hlen. rewrite Hk. apply (older_fetch e _ Hp recs T w x k Hdk Hlen).
Qed.

Lemma lived_prefix e a l l2 w s w2 s2 d : iter_ok e -> good_args a -> Forall (valid_op (ca_key_size a)) (l ++ l2) ->
  lived e a l w s -> lived e a (l ++ l2) w2 s2 -> w_dat w = Some d -> exists x, w_dat w2 = Some (d ++ x).
Proof.
  intros Hit Ha Hv Hl (os2 & Hl2) Hd. destruct (good_args_ok a Ha) as (Hp & _).
  apply Forall_app in Hv as [Hv1 Hv2].
  destruct (lived_more e a l w s Ha Hit Hv1 Hl) as (recs & T & El & Hi & Hz & Hm & _).
  rewrite (life_app _ _ _ _ _ _ _ El) in Hl2.
  destruct (do_ops e s l2 w) as [[w3 s3] os3] eqn:E.
  assert (X : w3 = w2 /\ s3 = Some s2) by (split; congruence). destruct X as [-> ->].
  destruct (do_ops_extends e _ Hp Hit l2 recs T s w _ _ _ _ _ _ Hi Hz Hv2 Hm E) as (y & T' & Hi2).
  pose proof (dk_dat _ _ _ _ _ (si_disk _ _ _ _ _ _ Hi)) as D1.
  pose proof (dk_dat _ _ _ _ _ (si_disk _ _ _ _ _ _ Hi2)) as D2.
  change (wget w FDat) with (w_dat w) in D1. change (wget w2 FDat) with (w_dat w2) in D2.
  exists (enc_recs y). rewrite D2, enc_recs_app, app_assoc. congruence.
Qed.

Lemma older_key e a l l2 w s w2 s2 S q w3 S3 d lg : iter_ok e -> good_args a ->
  Forall (valid_op (ca_key_size a)) (l ++ l2) ->
  lived e a l w s -> lived e a (l ++ l2) w2 s2 ->
  fsteps log_in_order (store_flush e s2) w2 S q w3 S3 -> w_dat w3 = Some d -> lg = None \/ lg = Some [] ->
  let w1 := World (Some d) (w_key w) (Some []) in
  exists s1, run (store_open e) (World (Some d) (w_key w) lg) = (w1, Ok s1) /\
    forall k, blen k = ca_key_size a -> run (store_fetch e s1 k) w1 =
      (w1, match spec_durable sempty sempty l k with Some v => Ok v | None => Er key_not_found end).
Proof.
  intros Hit Ha Hv Hl Hl2 Hs Hd Hlg. pose proof Hv as Hv'. apply Forall_app in Hv' as [Hv1 _].
  destruct (good_args_ok a Ha) as (Hp & _).
  destruct (lived_more e a l w s Ha Hit Hv1 Hl) as (recs & T & _ & Hi & _).
  pose proof (dk_dat _ _ _ _ _ (si_disk _ _ _ _ _ _ Hi)) as D1. change (wget w FDat) with (w_dat w) in D1.
  destruct (lived_prefix _ _ _ _ _ _ _ _ _ Hit Ha Hv Hl Hl2 D1) as (x & D2).
  destruct (data_append_only _ _ _ _ _ _ _ _ D2 Hs) as (y & D3).
  rewrite D3 in Hd. assert (X : d = (db_hdr (dbp_of a) ++ enc_recs recs) ++ (x ++ y)) by (rewrite app_assoc; congruence).
  rewrite X. apply (grown_data e a l w s _ (x ++ y) lg Hit Ha Hv1 Hl D1 Hlg).
Qed.
