(** The statements of Props/CrashProps.v. *)
From Verif Require Import Model.Bytes Model.Err Model.Field Model.Format Model.IO Model.BulkIO
  Model.Bucket Model.Pool Model.Recover Model.Create Model.Store Model.History Model.Crash Model.Events
  Spec SpecCrash SpecHeader Proofs.BytesFacts Proofs.IOFacts Proofs.StoreInv Proofs.HistoryFacts Proofs.SafeFacts
  Proofs.CommitOps Proofs.LifeFacts Proofs.EventFacts Proofs.FailFacts Proofs.RefuseFacts.

Lemma stopped_call e a M0 evs os M c w1 :
  good_args a -> iter_ok e -> started e a M0 -> happened e M0 evs os M ->
  Forall (fun ev => valid_op (ca_key_size a) (event_op ev)) evs -> valid_op (ca_key_size a) c ->
  crash ord (op_prog e (m_store M) c) (m_files M) (m_disk M) w1 ->
  exists w2, run (recover e) w1 = (w2, Ok tt) /\ w_log w2 = None /\
    (same_files w2 (m_files M) \/
     exists w' s', run (op_prog e (m_store M) c) (m_files M) = (w', (Some s', ODone)) /\ same_files w2 w').
Proof.
  intros Ha Hit Hs Hh Hv Hc Hcr.
  destruct (stop_files _ _ _ _ _ _ _ _ Ha Hit Hs Hh Hv Hc Hcr) as (w3 & Hl & _ & Ho & Hi).
  exists w3. splits; auto. apply (Hi w1). constructor.
Qed.

Lemma histories_with_stops e a M0 evs os M :
  good_args a -> iter_ok e -> started e a M0 -> happened e M0 evs os M ->
  Forall (fun ev => valid_op (ca_key_size a) (event_op ev)) evs ->
  exists m d, spec_events sempty sempty evs os m d.
Proof.
  intros Ha Hit Hs Hh Hv. destruct (events_ok _ _ _ _ _ _ Ha Hit Hs Hh Hv) as (recs & T & m & d & _ & _ & _ & H).
  eauto.
Qed.

Lemma recovery_repeatable e a M0 evs os M c w1 w2 r w' :
  good_args a -> iter_ok e -> started e a M0 -> happened e M0 evs os M ->
  Forall (fun ev => valid_op (ca_key_size a) (event_op ev)) evs -> valid_op (ca_key_size a) c ->
  crash ord (op_prog e (m_store M) c) (m_files M) (m_disk M) w1 ->
  run (recover e) w1 = (w2, r) -> interrupted ord e w1 w' ->
  r = Ok tt /\ run (recover e) w' = (w2, Ok tt) /\ run (recover e) w2 = (w2, Ok tt) /\
  exists w3 s3, run (store_open e) w' = (w3, Ok s3) /\ same_files w3 w2.
Proof.
  intros Ha Hit Hs Hh Hv Hc Hcr Hr Hint.
  destruct (stop_files _ _ _ _ _ _ _ _ Ha Hit Hs Hh Hv Hc Hcr) as (w3 & Hl & Hd & Ho & Hi).
  destruct (Hi w1 (int_none _ _ _)) as [R1 _]. rewrite Hr in R1. injection R1 as -> ->.
  destruct (Hi w' Hint) as [R2 R3]. splits; auto.
Qed.

Lemma clean_recover e w d k :
  w_dat w = Some d -> w_key w = Some k -> bytes_ok d -> 92 <= blen d -> 104 < blen k ->
  first_failed (dat_checks d) = None ->
  match w_log w with None => True | Some l => blen l < 62 end ->
  run (recover e) w = (World (Some d) (Some k) None, Ok tt) /\
  run (recover e) (World (Some d) (Some k) None) = (World (Some d) (Some k) None, Ok tt).
Proof. intros. split; apply recover_no_log; auto. exact I. Qed.

Lemma data_append_only e s w S q w' S' d :
  w_dat w = Some d -> fsteps ord (store_flush e s) w S q w' S' -> exists x, w_dat w' = Some (d ++ x).
Proof. intros Hd Hs. eapply (flush_extends e s w S q w' S' d); eauto. Qed.

Lemma steps_fsteps ordf {A} (p : prog A) w S p' w' S' : steps ordf p w S p' w' S' -> fsteps ordf p w S p' w' S'.
Proof. induction 1; constructor; auto. Qed.

Lemma fsteps_run ordf {A} (p : prog A) w S :
  exists S', fsteps ordf p w S (Ret (snd (run p w))) (fst (run p w)) S'.
Proof.
  revert w S. induction p as [a|o k IH]; intros w S.
  - exists S. constructor.
  - rewrite run_do. destruct (IH (snd (exec o w)) (fst (exec o w)) (sexec ordf o w S)) as (S' & H).
    exists S'. constructor. exact H.
Qed.

Lemma error_reported e s w S o k w1 S1 n w2 s' w' S' :
  st_ec s = None ->
  fsteps ord (store_flush e s) w S (Do o k) w1 S1 -> failed ord o w1 w2 ->
  fsteps ord (k (RErr (EIO n))) w2 (sfail ord o w1 S1) (Ret s') w' S' ->
  st_ec s' = Some (EIO n) /\ w' = w2.
Proof.
  intros He Hs Hf Hr. unfold store_flush in Hs. destruct (pool_is_empty (st_p1 s)).
  { apply fsteps_ret in Hs as (X & _). discriminate X. }
  rewrite He in Hs. apply fsteps_bind_ret in Hs as (q0 & Hs & Eq); [|intros [b|er]; eauto].
  destruct q0 as [r|o0 k0]; [destruct r; discriminate Eq|]. simpl in Eq. injection Eq as <- ->.
  destruct (strict_fsteps _ _ _ _ _ _ _ (strict_commit e s) Hs) as [H|(o' & k' & w3 & S3 & m & _ & _ & X & _)];
    [|discriminate X].
  pose proof (steps_strict _ _ _ _ _ _ _ H (strict_commit e s)) as Hst. inversion Hst as [|? ? Hk _]; subst.
  rewrite Hk in Hr. simpl in Hr. apply fsteps_ret in Hr as (X & -> & _). injection X as ->. split; reflexivity.
Qed.

Lemma recover_after_failure e a M0 evs os M q w' S' w1 :
  good_args a -> iter_ok e -> started e a M0 -> happened e M0 evs os M ->
  Forall (fun ev => valid_op (ca_key_size a) (event_op ev)) evs ->
  fsteps ord (store_flush e (m_store M)) (m_files M) (m_disk M) q w' S' ->
  w1 = w' \/ on_disk S' w1 ->
  exists w2, run (recover e) w1 = (w2, Ok tt) /\ w_log w2 = None /\
    (same_files w2 (m_files M) \/
     exists w3 s3, run (op_prog e (m_store M) OpFlush) (m_files M) = (w3, (Some s3, ODone)) /\
       same_files w2 w3).
Proof.
  intros Ha Hit Hs Hh Hv Hfl Hw.
  destruct (events_ok _ _ _ _ _ _ Ha Hit Hs Hh Hv) as (recs & T & m & d & (_ & _ & Hd) & _).
  assert (Hvo : valid_op (ca_key_size a) OpFlush) by exact I.
  assert (Hcr : crash ord (op_prog e (m_store M) OpFlush) (m_files M) (m_disk M) w1).
  { eapply failed_flush_crash; eauto. }
  exact (stopped_call e a M0 evs os M OpFlush w1 Ha Hit Hs Hh Hv Hvo Hcr).
Qed.

Lemma appends_at_end e a M0 evs os M S f ap off d k w1 S1 :
  good_args a -> iter_ok e -> started e a M0 -> happened e M0 evs os M ->
  Forall (fun ev => valid_op (ca_key_size a) (event_op ev)) evs ->
  fsteps ord (store_flush e (m_store M)) (m_files M) S (Do (IoWrite f ap off d) k) w1 S1 ->
  f <> FKey -> exists c, wget w1 f = Some c /\ off = blen c.
Proof.
  intros Ha Hit Hs Hh Hv Hfl Hk. destruct (good_args_ok a Ha) as (Hp & _).
  destruct (events_ok _ _ _ _ _ _ Ha Hit Hs Hh Hv) as (recs & T & m & d' & (Hi & _) & _).
  eapply (flush_at_end e (dbp_of a) Hp Hit); eauto.
Qed.
