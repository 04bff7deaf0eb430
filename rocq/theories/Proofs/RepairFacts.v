(** What can be done after open() has refused a key file. *)
From Verif Require Import Model.Bytes Model.Err Model.Field Model.Format Model.IO Model.BulkIO
  Model.Bucket Model.Pool Model.Recover Model.Create Model.Store Model.History Model.Crash Model.Rekey
  Model.RekeyLife Spec SpecHeader SpecRekey
  Proofs.BytesFacts Proofs.IOFacts Proofs.RefuseFacts Proofs.StoreInv Proofs.HistoryFacts Proofs.LifeFacts Proofs.RekeyFacts Proofs.RekeyRun Proofs.RekeyHist Proofs.RekeyTheorems.

Lemma log_left e d k er :
  bytes_ok d -> bytes_ok k -> 92 <= blen d -> 104 < blen k ->
  first_failed (dat_checks d) = None -> first_failed (key_checks (e_hasher e) k ++ dat_key_checks d k) = Some er ->
  run (store_open e) (World (Some d) (Some k) None) = (World (Some d) (Some k) (Some []), Er er).
Proof.
  intros Dok Kok Dl Kl Fd Fk.
  destruct (open_checked_log e (World (Some d) (Some k) None) d k eq_refl eq_refl Dok Kok Dl Kl I) as (w' & _ & E & R).
  rewrite Fd in E. subst w'. rewrite first_failed_app, Fd, Fk in R. exact R.
Qed.

Lemma stuck e d l : bytes_ok d -> 92 <= blen d -> first_failed (dat_checks d) = None ->
  run (recover e) (World (Some d) None (Some l)) = (World (Some d) None (Some l), Er ENoEnt) /\
  run (store_open e) (World (Some d) None (Some l)) = (World (Some d) None (Some l), Er ENoEnt) /\
  forall r, run (rekey e r) (World (Some d) None (Some l)) = (World (Some d) None (Some l), Er log_file_exists).
Proof.
  intros Dok Dl Fd. set (w := World (Some d) None (Some l)).
  assert (V : verify_dat (dh_of d) = Ok tt).
  { rewrite dat_verdict by auto. unfold verdict. rewrite Fd. reflexivity. }
  assert (R : run (recover e) w = (w, Er ENoEnt)).
  { unfold recover. rewrite (run_ebind_ok _ _ _ _ _ (run_open FDat w d eq_refl)).
    rewrite (run_ebind_ok _ _ _ _ _ (run_sz FDat w d eq_refl)).
    rewrite (run_ebind_ok _ _ _ _ _ (read_dat d Dl w eq_refl)).
    rewrite (run_ebind_ok _ _ w w tt) by (unfold plift; rewrite V; reflexivity).
    apply run_ebind_er. reflexivity. }
  split; [exact R|]. split; [apply open_recover_er; exact R|]. intros r.
  unfold rekey. apply run_ebind_er. unfold rekey_start.
  rewrite (run_ebind_ok _ _ _ _ _ (run_open FDat w d eq_refl)).
  rewrite (run_ebind_ok _ _ _ _ _ (read_dat d Dl w eq_refl)).
  rewrite (run_ebind_ok _ _ w w tt) by (unfold plift; rewrite V; reflexivity).
  rewrite (run_ebind_ok _ _ _ _ _ (run_sz FDat w d eq_refl)). reflexivity.
Qed.

Lemma rebuilt e a l r w s os d k : good_args a -> iter_ok e -> Forall (valid_xop (ca_key_size a)) l ->
  good_rekey r -> small_xhistory (l ++ [XRekey r]) ->
  xlife e a l = (w, Some s, os) -> run (store_close e s) w = (World (Some d) (Some k) None, Ok tt) ->
  92 <= blen d /\ exists w1 t w2 s2,
    run (rekey e r) (World (Some d) None None) = (w1, Ok t) /\ run (store_open e) w1 = (w2, Ok s2) /\
    do_xop e s (XRekey r) w = (w2, Some s2, ODone) /\
    forall key, blen key = ca_key_size a ->
      snd (run (store_fetch e s2 key) w2) =
      match spec_final sempty (map as_reopen l) key with Some v => Ok v | None => Er key_not_found end.
Proof.
  intros Ha Hit Hv Hg Hsm E Hcl.
  destruct (xlived_ok e a l Ha Hit Hv) as [(q & recs & T & s' & w' & Ho & Hq & Hs & Hz & Q1 & Q2 & Q3 & Hab)|[_ (w' & n & _ & _ & Ho)]];
    rewrite E in Ho; [|discriminate].
  assert (X : s' = s /\ w' = w) by (split; congruence). destruct X as [-> ->]. clear Ho.
  destruct (rekey_op_ok e q recs T s w _ _ r Hq Hit Hg Hs Hz)
      as [(lf & nb & x & news & T' & s2 & w2 & t & Hto & _)|[Hbig _]].
  2: { exfalso. revert Hsm. apply not_small_x.
    assert (M : map as_reopen (l ++ [XRekey r]) = map as_reopen l ++ [OpReopen]) by (rewrite map_app; reflexivity).
    rewrite M.
    assert (I1 : inserts (map as_reopen l ++ [OpReopen]) = inserts (map as_reopen l)).
    { generalize (map as_reopen l). intros m. clear. induction m as [|c m IH]; cbn [inserts app]; [reflexivity|]. lia. }
    assert (I2 : insert_bytes (map as_reopen l ++ [OpReopen]) = insert_bytes (map as_reopen l)).
    { generalize (map as_reopen l). intros m. clear. induction m as [|c m IH]; cbn [insert_bytes app]; [reflexivity|]. lia. }
    assert (I3 : rekeys (l ++ [XRekey r]) = rekeys l + 1).
    { clear. induction l as [|[c|r'] l IH]; cbn [rekeys app]; lia. }
    rewrite I1, I2, I3. unfold too_long in Hbig. unfold too_long_x. clear - Hbig. lia. }
  destruct (rt_close _ _ _ _ _ _ _ _ _ _ _ _ _ _ Hto) as (w' & C1 & C2 & C3 & (K & C4) & C5 & C6).
  rewrite Hcl in C1. injection C1 as <-.
  split.
  { change (Some d = Some (db_hdr q ++ Table.enc_recs (recs ++ x))) in C2.
    assert (X : d = db_hdr q ++ Table.enc_recs (recs ++ x)) by congruence. rewrite X, blen_app, (p_hdr q). unfold dat_hdr_size. lia. }
  exists (wset w2 FLog None), t, w2, s2. split; [exact C5|]. split; [exact C6|].
  split; [exact (rt_do _ _ _ _ _ _ _ _ _ _ _ _ _ _ Hto)|]. intros key Hk.
  rewrite (fetch_ok e (rekeyed q r lf nb) (rekeyed_ok q r lf nb Hq (rt_ready _ _ _ _ _ _ _ _ _ _ _ _ _ _ Hto)) _ _ _ _ key (rt_sinv _ _ _ _ _ _ _ _ _ _ _ _ _ _ Hto)).
  - cbn [snd]. rewrite (rt_abs _ _ _ _ _ _ _ _ _ _ _ _ _ _ Hto), Hab. reflexivity.
  - rewrite Hk, <- Q3. reflexivity.
Qed.

(** The data file of a closed database has a complete and valid header. *)
Lemma closed_header e a l r w s os d k : good_args a -> iter_ok e -> Forall (valid_xop (ca_key_size a)) l ->
  good_rekey r -> small_xhistory (l ++ [XRekey r]) ->
  xlife e a l = (w, Some s, os) -> run (store_close e s) w = (World (Some d) (Some k) None, Ok tt) ->
  bytes_ok d -> first_failed (dat_checks d) = None.
Proof.
  intros Ha Hit Hv Hg Hsm E Hcl Dok.
  destruct (rebuilt e a l r w s os d k Ha Hit Hv Hg Hsm E Hcl) as (Dl & w1 & t & _ & _ & R & _).
  destruct (first_failed (dat_checks d)) as [er|] eqn:Fd; [exfalso|reflexivity].
  set (w0 := World (Some d) None None) in *.
  assert (V : verify_dat (dh_of d) = Er er).
  { rewrite dat_verdict by auto. unfold verdict. rewrite Fd. reflexivity. }
  assert (X : run (rekey e r) w0 = (w0, Er er)).
  { unfold rekey. apply run_ebind_er. unfold rekey_start.
    rewrite (run_ebind_ok _ _ _ _ _ (run_open FDat w0 d eq_refl)).
    rewrite (run_ebind_ok _ _ _ _ _ (read_dat d Dl w0 eq_refl)).
    apply run_ebind_er. unfold plift. rewrite V. reflexivity. }
  rewrite X in R. discriminate R.
Qed.
