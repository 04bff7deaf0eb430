(** C58: which file operations each function may carry out, whatever the answers it gets. *)
From Verif Require Import Model.Bytes Model.Err Model.Field Model.Format Model.IO Model.BulkIO
  Model.Bucket Model.Pool Model.Recover Model.Create Model.Store Model.History Model.Visit Model.Verify
  Model.VerifyProgress Model.VerifyFetch Model.Rekey Model.RekeyLife Model.Crash
  Spec SpecOps Proofs.BytesFacts Proofs.SafeFacts Proofs.RecoverFacts Proofs.EventFacts Proofs.OpsFacts
  Proofs.CrashTheorems Props.Samples Props.CrashSamples Props.RekeyProps.
Open Scope N_scope.

(** fetch and insert, on any store; visit and verify, on any files. *)
Theorem C58_lookups : forall e s k v cb buf o,
  may_do o (store_fetch e s k) \/ may_do o (store_insert e s k v) \/
  may_do o (visit cb) \/ may_do o (verify e buf) \/ may_do o (verify_report e buf) ->
  look_may o.
Proof.
  intros e s k v cb buf o [H|[H|[H|[H|H]]]].
  - exact (may_ops _ _ _ _ (reads_store_fetch e s k) H).
  - exact (may_ops _ _ _ _ (reads_store_insert e s k v) H).
  - exact (may_ops _ _ _ _ (reads_visit cb) H).
  - exact (may_ops _ _ _ _ (reads_verify e buf) H).
  - exact (may_ops _ _ _ _ (reads_verify_report e buf) H).
Qed.

(** Hence they leave all files as they are, also when operations fail and wherever they
    are stopped. *)
Theorem C58_lookups_keep_files : forall e s k v cb buf w S w' S',
  (exists q, fsteps log_in_order (store_fetch e s k) w S q w' S') \/
  (exists q, fsteps log_in_order (store_insert e s k v) w S q w' S') \/
  (exists q, fsteps log_in_order (visit cb) w S q w' S') \/
  (exists q, fsteps log_in_order (verify e buf) w S q w' S') \/
  (exists q, fsteps log_in_order (verify_report e buf) w S q w' S') ->
  w' = w.
Proof.
  intros e s k v cb buf w S w' S' [[q H]|[[q H]|[[q H]|[[q H]|[q H]]]]].
  - exact (reads_fsteps _ _ _ _ _ _ (reads_store_fetch e s k) H).
  - exact (reads_fsteps _ _ _ _ _ _ (reads_store_insert e s k v) H).
  - exact (reads_fsteps _ _ _ _ _ _ (reads_visit cb) H).
  - exact (reads_fsteps _ _ _ _ _ _ (reads_verify e buf) H).
  - exact (reads_fsteps _ _ _ _ _ _ (reads_verify_report e buf) H).
Qed.

(** The background flush. *)
Theorem C58_flush : forall e s o, may_do o (store_flush e s) -> flush_may (kh_block_size (st_kh s)) o.
Proof. intros e s o. exact (may_ops _ _ _ _ (ops_flush e s)). Qed.

(** Hence a flush leaves the first block of the key file, which holds the header, as it is,
    at every point and also when operations fail. *)
Theorem C58_flush_keeps_header : forall e s w S q w' S' c,
  w_key w = Some c -> kh_block_size (st_kh s) <= blen c ->
  fsteps log_in_order (store_flush e s) w S q w' S' ->
  exists c', w_key w' = Some c' /\
    btake (kh_block_size (st_kh s)) c' = btake (kh_block_size (st_kh s)) c.
Proof. exact flush_head. Qed.

(** close(). *)
Theorem C58_close : forall e s o, may_do o (store_close e s) -> close_may (kh_block_size (st_kh s)) o.
Proof. intros e s o. exact (may_ops _ _ _ _ (ops_close e s)). Qed.

(** recover() and open(), on any files, however damaged. *)
Theorem C58_recover : forall e o, may_do o (recover e) -> recover_may o.
Proof. intros e o. exact (may_ops _ _ _ _ (ops_recover e)). Qed.

Theorem C58_open : forall e o, may_do o (store_open e) -> open_may o.
Proof. intros e o. exact (may_ops _ _ _ _ (ops_open e)). Qed.

(** rekey(), on any data file. *)
Theorem C58_rekey : forall e a o, may_do o (rekey e a) -> rekey_may o.
Proof. intros e a o. exact (may_ops _ _ _ _ (ops_rekey e a)). Qed.

(** ** Samples: the operations that are allowed do happen *)

(** Whether running [p] on [w] carries out an operation satisfying [f]. *)
Fixpoint does {A} (f : io -> bool) (p : prog A) (w : world) : bool :=
  match p with
  | Ret _ => false
  | Do o k => f o || does f (k (snd (exec o w))) (fst (exec o w))
  end.
Lemma does_may {A} f (p : prog A) : forall w, does f p w = true -> exists o, f o = true /\ may_do o p.
Proof.
  induction p as [a|o k IH]; intros w H; [discriminate H|]. cbn [does] in H.
  destruct (f o) eqn:E; [exists o; split; [exact E|constructor]|]. cbn [orb] in H.
  destruct (IH _ _ H) as (o' & H1 & H2). exists o'. split; [exact H1|]. econstructor. exact H2.
Qed.

Definition writes_dat (o : io) : bool := match o with IoWrite FDat true _ _ => true | _ => false end.
Definition writes_key (o : io) : bool := match o with IoWrite FKey false off _ => 104 <? off | _ => false end.
Definition empties_log (o : io) : bool := match o with IoTrunc FLog 0 => true | _ => false end.
Definition cuts_dat (o : io) : bool := match o with IoTrunc FDat _ => true | _ => false end.
Definition erases_log (o : io) : bool := match o with IoErase FLog => true | _ => false end.
Definition reads_dat (o : io) : bool := match o with IoRead FDat _ _ => true | _ => false end.

Example C58_sample :
  (exists o, reads_dat o = true /\ may_do o (store_fetch sample_env pending_store (sample_key 3))) /\
  (exists o, writes_dat o = true /\ may_do o (store_flush sample_env pending_store)) /\
  (exists o, writes_key o = true /\ may_do o (store_flush sample_env pending_store)) /\
  (exists o, empties_log o = true /\ may_do o (store_flush sample_env pending_store)) /\
  (exists o, erases_log o = true /\ may_do o (store_close sample_env pending_store)) /\
  (exists o, cuts_dat o = true /\ may_do o (recover sample_env)) /\
  (exists o, writes_key o = true /\ may_do o (store_open sample_env)) /\
  (exists o, writes_dat o = true /\ may_do o (rekey sample_env sample_rekey)).
Proof.
  repeat split.
  - apply does_may with pending_files. vm_compute. reflexivity.
  - apply does_may with pending_files. vm_compute. reflexivity.
  - apply does_may with pending_files. vm_compute. reflexivity.
  - apply does_may with pending_files. vm_compute. reflexivity.
  - apply does_may with pending_files. vm_compute. reflexivity.
  - apply does_may with torn_files. vm_compute. reflexivity.
  - apply does_may with torn_files. vm_compute. reflexivity.
  - apply does_may with data_only. vm_compute. reflexivity.
Qed.

(** The hypotheses of C58_flush_keeps_header: a flush after which the key file differs. *)
Example C58_header_sample : exists S' q c,
  w_key pending_files = Some c /\ kh_block_size (st_kh pending_store) <= blen c /\
  fsteps log_in_order (store_flush sample_env pending_store) pending_files (durable pending_files)
    (Ret q) (fst (run (store_flush sample_env pending_store) pending_files)) S' /\
  w_key (fst (run (store_flush sample_env pending_store) pending_files)) <> w_key pending_files.
Proof.
  destruct (fsteps_run log_in_order (store_flush sample_env pending_store) pending_files (durable pending_files))
    as (S' & H). do 3 eexists. split; [reflexivity|]. split; [vm_compute; discriminate|].
  split; [exact H|vm_compute; discriminate].
Qed.

Print Assumptions C58_lookups.
Print Assumptions C58_lookups_keep_files.
Print Assumptions C58_flush.
Print Assumptions C58_flush_keeps_header.
Print Assumptions C58_close.
Print Assumptions C58_recover.
Print Assumptions C58_open.
Print Assumptions C58_rekey.
