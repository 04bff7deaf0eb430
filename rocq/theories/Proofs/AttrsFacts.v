(** The statements of Props/AttrsProps.v. *)
From Verif Require Import Model.Bytes Model.Err Model.Field Model.Format Model.IO
  Model.BulkIO Model.Bucket Model.Pool Model.Recover Model.Create Model.Store Spec SpecCrash Model.History
  Model.Crash Model.Events Model.Rekey Model.RekeyLife Model.Attrs SpecAttrs
  Proofs.BytesFacts Proofs.FieldFacts Proofs.IOFacts Proofs.PoolFacts Proofs.BucketFacts
  Proofs.BulkFacts Proofs.HashFacts Proofs.Table Proofs.Lookup Proofs.SplitFacts
  Proofs.CommitFacts Proofs.CommitInv Proofs.CommitRun Proofs.HeaderFacts Proofs.StoreInv
  Proofs.OpenFacts Proofs.HistoryFacts Proofs.LifeFacts Proofs.SafeFacts Proofs.CommitOps Proofs.CrashFacts
  Proofs.RecoverFacts Proofs.EventFacts Proofs.RekeyFacts Proofs.RekeyRun Proofs.RekeyHist.
Opaque loop.

Definition attrs_of (s : store) (p : dbp) : Prop :=
  store_appnum s = db_appnum p /\ store_key_size s = db_key_size p /\ store_block_size s = db_block_size p.

Lemma sinv_attrs e p recs T s w : sinv e p recs T s w -> attrs_of s p.
Proof.
  intros Hi. destruct (si_kh _ _ _ _ _ _ Hi) as (B & Hk).
  unfold attrs_of, store_appnum, store_key_size, store_block_size. rewrite Hk. auto.
Qed.

Lemma sinv_head e p recs T s w : dbp_ok p -> sinv e p recs T s w ->
  exists d k, w_dat w = Some d /\ w_key w = Some k /\
    btake 92 d = db_hdr p /\ btake (db_block_size p) k = db_kb e p.
Proof.
  intros Hp Hi. pose proof (si_disk _ _ _ _ _ _ Hi) as Hd.
  do 2 eexists. split; [exact (dk_dat _ _ _ _ _ Hd)|]. split; [exact (dk_key _ _ _ _ _ Hd)|].
  split.
  - apply btake_app_eq. symmetry. apply p_hdr.
  - apply btake_app_eq. symmetry. apply p_kb, Hp.
Qed.

Lemma create_head e a w1 : good_args a -> run (create e a) no_files = (w1, Ok tt) ->
  exists d1 k1, w_dat w1 = Some d1 /\ w_key w1 = Some k1 /\
    btake 92 d1 = db_hdr (dbp_of a) /\ btake (ca_block_size a) k1 = db_kb e (dbp_of a).
Proof.
  intros Ha Hc. destruct (good_args_ok a Ha) as (Hp & Hi & Hf & Haa).
  pose proof (create_ok e (dbp_of a) _ no_files Hp Hi Hf eq_refl eq_refl eq_refl) as Hc'. rewrite Haa in Hc'.
  rewrite Hc in Hc'. injection Hc' as ->. exists (db_hdr (dbp_of a)). eexists.
  split; [reflexivity|]. split; [reflexivity|]. split.
  - apply btake_all. rewrite p_hdr. cbv. discriminate.
  - apply btake_app_eq. symmetry. exact (p_kb e (dbp_of a) Hp).
Qed.

Lemma events_attrs e a M0 evs os M : good_args a -> iter_ok e -> started e a M0 -> happened e M0 evs os M ->
  Forall (fun ev => valid_op (ca_key_size a) (event_op ev)) evs ->
  store_appnum (m_store M) = ca_appnum a /\ store_key_size (m_store M) = ca_key_size a /\
  store_block_size (m_store M) = ca_block_size a.
Proof.
  intros Ha Hit Hs Hh Hv. destruct (events_ok _ _ _ _ _ _ Ha Hit Hs Hh Hv) as (recs & T & m & d & (Hi & _) & _).
  exact (sinv_attrs _ _ _ _ _ _ Hi).
Qed.

Lemma events_head e a M0 evs os M w1 : good_args a -> iter_ok e -> started e a M0 -> happened e M0 evs os M ->
  Forall (fun ev => valid_op (ca_key_size a) (event_op ev)) evs ->
  run (create e a) no_files = (w1, Ok tt) ->
  exists d1 k1 d k, w_dat w1 = Some d1 /\ w_key w1 = Some k1 /\
    w_dat (m_files M) = Some d /\ w_key (m_files M) = Some k /\
    btake 92 d = btake 92 d1 /\ btake (ca_block_size a) k = btake (ca_block_size a) k1.
Proof.
  intros Ha Hit Hs Hh Hv Hc. destruct (events_ok _ _ _ _ _ _ Ha Hit Hs Hh Hv) as (recs & T & m & d & (Hi & _) & _).
  destruct (good_args_ok a Ha) as (Hp & _).
  destruct (create_head e a w1 Ha Hc) as (d1 & k1 & A1 & A2 & A3 & A4).
  destruct (sinv_head _ _ _ _ _ _ Hp Hi) as (d2 & k2 & B1 & B2 & B3 & B4). cbn [db_block_size dbp_of] in B4.
  exists d1, k1, d2, k2. rewrite A3, A4. splits; auto.
Qed.

(** ** With rekeys *)
Lemma do_xops_attrs e (Hit : iter_ok e) l : forall p recs T s w i b w' s' os,
  dbp_ok p -> sinv e p recs T s w -> szinv recs s i b -> Forall (valid_xop (db_key_size p)) l ->
  do_xops e s l w = (w', Some s', os) ->
  exists q recs' T', dbp_ok q /\ sinv e q recs' T' s' w' /\ db_uid q = db_uid p /\ db_appnum q = db_appnum p /\
    db_key_size q = db_key_size p /\ db_block_size q = last_block_size (db_block_size p) l.
Proof.
  induction l as [|c l IH]; intros p recs T s w i b w' s' os Hp Hi Hz Hv Hd.
  - cbn [do_xops] in Hd. injection Hd as <- <- <-. exists p, recs, T. splits; auto.
  - inversion Hv as [|? ? Hc Hl]; subst. cbn [do_xops] in Hd. destruct c as [c|a].
    + cbn [do_xop] in Hd. destruct (do_op_ok e p Hp Hit _ _ _ _ _ _ c (abs recs s) Hi Hz Hc (fun k => eq_refl))
        as [(x & T1 & s1 & w1 & Hr & Hi1 & Hz1 & _)|[_ (w1 & o1 & Hr & _)]]; rewrite Hr in Hd.
      2: { exfalso. clear - Hd. destruct o1; discriminate Hd. }
      destruct (do_xops e s1 l w1) as [[w2 s2] os2] eqn:E.
      assert (X : s2 = Some s' /\ w2 = w').
      { clear - Hd. destruct (snd _); injection Hd; intros; subst; auto; discriminate. }
      destruct X as [-> ->]. exact (IH p _ _ _ _ _ _ _ _ _ Hp Hi1 Hz1 Hl E).
    + destruct (rekey_op_ok e p recs T s w i b a Hp Hit Hc Hi Hz)
        as [(lf & nb & x & news & T1 & s1 & w1 & t & Hrt & Hz1)|[_ (w1 & Hr & _)]].
      2: { rewrite Hr in Hd. discriminate Hd. }
      rewrite (rt_do _ _ _ _ _ _ _ _ _ _ _ _ _ _ Hrt) in Hd.
      destruct (do_xops e s1 l w1) as [[w2 s2] os2] eqn:E. injection Hd as -> -> <-.
      exact (IH _ _ _ _ _ _ _ _ _ _ (rekeyed_ok _ _ _ _ Hp (rt_ready _ _ _ _ _ _ _ _ _ _ _ _ _ _ Hrt))
        (rt_sinv _ _ _ _ _ _ _ _ _ _ _ _ _ _ Hrt) Hz1 Hl E).
Qed.

Lemma xlife_attrs e a l w s os : good_args a -> iter_ok e -> Forall (valid_xop (ca_key_size a)) l ->
  xlife e a l = (w, Some s, os) ->
  store_appnum s = ca_appnum a /\ store_key_size s = ca_key_size a /\
  store_block_size s = last_block_size (ca_block_size a) l /\
  forall w1, run (create e a) no_files = (w1, Ok tt) ->
    exists d1 d, w_dat w1 = Some d1 /\ w_dat w = Some d /\ btake 92 d = btake 92 d1.
Proof.
  intros Ha Hit Hv Hx. destruct (good_args_ok a Ha) as (Hp & _).
  destruct (lived_start e a Ha Hit) as (s0 & w0 & Hl & Hs & He & Hf).
  assert (E : xlife e a l = do_xops e s0 l w0).
  { unfold xlife. pose proof (Hl []) as H0. unfold life in H0.
    destruct (run (create e a) no_files) as [w1 [u|er]]; [|discriminate].
    destruct (run (store_open e) w1) as [w2 [s2|er]]; [|discriminate].
    cbn [do_ops] in H0. injection H0 as -> ->. reflexivity. }
  rewrite E in Hx. clear E.
  destruct (do_xops_attrs e Hit l (dbp_of a) [] [([], 0)] s0 w0 0 0 w s os Hp Hs) as (q & recs & T & Hq & Hi & Q1 & Q2 & Q3 & Q4).
  - split; rewrite He; reflexivity.
  - exact Hv.
  - exact Hx.
  - destruct (sinv_attrs _ _ _ _ _ _ Hi) as (A1 & A2 & A3). rewrite Q2 in A1. rewrite Q3 in A2. rewrite Q4 in A3.
    splits; auto. intros w1 Hc. destruct (create_head e a w1 Ha Hc) as (d1 & k1 & B1 & _ & B3 & _).
    destruct (sinv_head _ _ _ _ _ _ Hq Hi) as (d2 & k2 & C1 & _ & C3 & _).
    exists d1, d2. splits; auto. rewrite C3, B3. unfold db_hdr, db_dh. rewrite Q1, Q2, Q3. reflexivity.
Qed.

(** ** Memory *)
Lemma abs_unsaved e p recs T s w k : sinv e p recs T s w ->
  option_map pe_data (pool_find (st_p1 s) k) = unsaved (abs recs s) (kfind (kvs recs)) k.
Proof.
  intros Hi. unfold unsaved, abs. destruct (pool_find (st_p1 s) k) as [x|] eqn:E; [|destruct (kfind (kvs recs) k); reflexivity].
  destruct (kfind (kvs recs) k) eqn:Ek; [|reflexivity]. exfalso.
  apply pmap_find_In in E as [Hin Hk]. pose proof (si_nd _ _ _ _ _ _ Hi) as Hn.
  assert (H1 : In k (pkeys (pl_map (st_p1 s)))) by (rewrite <- Hk; unfold pkeys; apply in_map, Hin).
  assert (H2 : In k (map fst (kvs recs))).
  { destruct (in_dec (list_eq_dec N.eq_dec) k (map fst (kvs recs))) as [Y|Y]; [exact Y|].
    apply kfind_none in Y. congruence. }
  clear - H1 H2 Hn. induction (pkeys (pl_map (st_p1 s))) as [|y l IH]; [exact H1|].
  cbn [app] in Hn. inversion Hn as [|? ? Hy Hl]; subst. destruct H1 as [-> |H1]; [|auto].
  apply Hy, in_or_app. auto.
Qed.

Lemma lived_memory e a l w s : good_args a -> iter_ok e -> Forall (valid_op (ca_key_size a)) l ->
  lived e a l w s ->
  st_p0 s = pool_empty /\ st_c1 s = [] /\
  forall k, option_map pe_data (pool_find (st_p1 s) k) =
    unsaved (spec_final sempty l) (spec_durable sempty sempty l) k.
Proof.
  intros Ha Hit Hv Hl. destruct (lived_more e a l w s Ha Hit Hv Hl) as (recs & T & _ & Hi & _ & Hm & Hd & _).
  split; [exact (si_p0 _ _ _ _ _ _ Hi)|]. split; [exact (si_c1 _ _ _ _ _ _ Hi)|].
  intros k. rewrite (abs_unsaved _ _ _ _ _ _ k Hi). unfold unsaved. rewrite Hd, Hm. reflexivity.
Qed.

Lemma events_memory e a M0 evs os M : good_args a -> iter_ok e -> started e a M0 -> happened e M0 evs os M ->
  Forall (fun ev => valid_op (ca_key_size a) (event_op ev)) evs ->
  exists m d, spec_events sempty sempty evs os m d /\
    st_p0 (m_store M) = pool_empty /\ st_c1 (m_store M) = [] /\
    forall k, option_map pe_data (pool_find (st_p1 (m_store M)) k) = unsaved m d k.
Proof.
  intros Ha Hit Hs Hh Hv. destruct (events_ok _ _ _ _ _ _ Ha Hit Hs Hh Hv) as (recs & T & m & d & (Hi & _) & Hm & Hd & He).
  exists m, d. split; [exact He|]. split; [exact (si_p0 _ _ _ _ _ _ Hi)|]. split; [exact (si_c1 _ _ _ _ _ _ Hi)|].
  intros k. rewrite (abs_unsaved _ _ _ _ _ _ k Hi). unfold unsaved. rewrite Hd, Hm. reflexivity.
Qed.
