(** C83, C84: the failures simulated by the tests; recovery that fails and is tried again. *)
From Verif Require Import Model.Bytes Model.Err Model.Field Model.Format Model.IO Model.BulkIO
  Model.Bucket Model.Pool Model.Recover Model.Create Model.Store Model.History Model.Crash Model.Events Model.FailFile
  Spec SpecCrash SpecHeader SpecRetry Proofs.BytesFacts Proofs.IOFacts Proofs.SafeFacts Proofs.FailFacts
  Proofs.CrashTheorems Proofs.RetryFacts Proofs.FailFileFacts Proofs.Witness Props.Samples Props.CrashSamples Proofs.LargeLog.
Opaque loop.

(** C83.  Any function of the library, any target of the counter: what fail_file lets happen is among the failures
    considered by the theorems about failing operations (C18, C84), after which the function has come to its end. *)
Theorem C83_possible : forall A (p : prog A) t c w w' a c' S,
  frun t c p w = (w', a, c') -> exists S', fsteps log_in_order p w S (Ret a) w' S'.
Proof. intros A p t c w w' a c' S. exact (frun_possible log_in_order p t c w w' a c' S). Qed.

(** Counting up the target reaches every chance to fail, one after the other: up to the target the function goes on as
    without failures; then the operation whose turn it is fails; and a target beyond the number of chances changes
    nothing, so the test that stops at the first success has tried all of them. *)
Theorem C83_turns : forall A (p : prog A) w, exists K,
  reach p w K (Ret (snd (run p w))) (fst (run p w)) /\
  (forall t, t = 0 \/ K < t -> exists c, frun t 0 p w = (run p w, c)) /\
  (forall t, 1 <= t <= K -> exists m o k u v er,
     reach p w m (Do o k) u /\ m < t <= m + chances o /\ failed_at o (t - m) u v /\
     (er = test_failure \/ exec o u = (u, RErr er)) /\
     frun t 0 p w = frun t t (k (RErr er)) v).
Proof. intros A p w. exact (frun_turns p w). Qed.

(** After the target every further read, write, sync and truncation fails without effect; files are only created or
    erased.  So fail_file never lets an operation fail and a later one succeed. *)
Theorem C83_no_second_chance :
  (forall t c o w, 0 < t <= c -> 0 < chances o ->
     exists c', t <= c' /\ fexec t c o w = (w, RErr test_failure, c')) /\
  (forall A (p : prog A) t c w w' a c', 0 < t <= c -> frun t c p w = (w', a, c') ->
     forall f, wget w' f = wget w f \/ wget w' f = None \/ wget w' f = Some []).
Proof.
  split; [exact fexec_after|]. intros A p. exact (frun_dead p).
Qed.

(** The use made of it by the tests: a flush on a database with any past, whichever operation fails; recovery with a
    working file gives the files before the flush or after it. *)
Theorem C83_flush : forall e a M0 evs os M t c w' s' c',
  good_args a -> iter_ok e -> started e a M0 -> happened e M0 evs os M ->
  Forall (fun ev => valid_op (ca_key_size a) (event_op ev)) evs ->
  frun t c (store_flush e (m_store M)) (m_files M) = (w', s', c') ->
  exists w2, run (recover e) w' = (w2, Ok tt) /\ w_log w2 = None /\
    (same_files w2 (m_files M) \/
     exists w3 s3, run (op_prog e (m_store M) OpFlush) (m_files M) = (w3, (Some s3, ODone)) /\
       same_files w2 w3).
Proof. exact flush_simulated. Qed.

(** The 14th of the 23 chances of a flush: the error is reported, data and key file are changed. *)
Example C83_example :
  exists M0 S w' s' c', started sample_env sample_args M0 /\
    happened sample_env M0 (map act_event pending_acts) pending_outs (Mach pending_files S pending_store) /\
    frun 14 0 (store_flush sample_env pending_store) pending_files = (w', s', c') /\
    st_ec s' = Some test_failure /\ w_key w' <> w_key pending_files /\
    exists w2, run (recover sample_env) w' = (w2, Ok tt) /\ same_files w2 pending_files.
Proof.
  destruct (history_happened _ _ _ _ _ _ pending_computed) as (M0 & S & Hs & Hh & _).
  assert (X : let '(w', s', _) := frun 14 0 (store_flush sample_env pending_store) pending_files in
    st_ec s' = Some test_failure /\ differ (w_key w') (w_key pending_files) = true /\
    match run (recover sample_env) w' with
    | (w2, Ok tt) => same_files w2 pending_files
    | _ => False
    end) by (vm_compute; repeat split; reflexivity).
  destruct (frun 14 0 (store_flush sample_env pending_store) pending_files) as [[w' s'] c'].
  exists M0, S, w', s', c'. destruct X as (X1 & X2 & X3).
  split; [exact Hs|]. split; [exact Hh|]. split; [reflexivity|]. split; [exact X1|]. split.
  - intros E. rewrite E in X2. revert X2. apply differ_irrefl.
  - destruct (run (recover sample_env) w') as [w2 [[]|er]]; [|destruct X3]. exists w2. split; [reflexivity|exact X3].
Qed.

(** C84.  The machine stopped during any call; recover() or open() is tried any number of times, where any operation may fail or
    the machine may stop again.  Then recover() gives the same files as if it had succeeded at once, and open() too,
    provided that in each attempt the log file has at most 1024 blocks besides its header or no read of a record of the log
    fails.  Without this proviso the claim is false. *)
Theorem C84_retry_partial : forall e a M0 evs os M c w1 w2 r w',
  good_args a -> iter_ok e -> started e a M0 -> happened e M0 evs os M ->
  Forall (fun ev => valid_op (ca_key_size a) (event_op ev)) evs -> valid_op (ca_key_size a) c ->
  crash log_in_order (op_prog e (m_store M) c) (m_files M) (m_disk M) w1 ->
  run (recover e) w1 = (w2, r) -> retried e w1 w' ->
  r = Ok tt /\ run (recover e) w' = (w2, Ok tt) /\
  exists w3 s3, run (store_open e) w' = (w3, Ok s3) /\ same_files w3 w2.
Proof. exact recovery_retried. Qed.

(** The same when nothing stopped but operations failed in a flush: recovery gives the files before the flush or those
    after the complete one, however often it is tried in vain first, and open() works. *)
Theorem C84_failed_flush_partial : forall e a M0 evs os M q w0 S0 w1 w',
  good_args a -> iter_ok e -> started e a M0 -> happened e M0 evs os M ->
  Forall (fun ev => valid_op (ca_key_size a) (event_op ev)) evs ->
  fsteps log_in_order (store_flush e (m_store M)) (m_files M) (m_disk M) q w0 S0 -> w1 = w0 \/ on_disk S0 w1 ->
  retried e w1 w' ->
  exists w2, run (recover e) w1 = (w2, Ok tt) /\ run (recover e) w' = (w2, Ok tt) /\ w_log w2 = None /\
    (same_files w2 (m_files M) \/
     exists w3 s3, run (op_prog e (m_store M) OpFlush) (m_files M) = (w3, (Some s3, ODone)) /\ same_files w2 w3) /\
    exists w3 s3, run (store_open e) w' = (w3, Ok s3) /\ same_files w3 w2.
Proof. exact failed_flush_retried. Qed.

(** Any files whatsoever: a recovery that failed has left them as one that was stopped; so has open(). *)
Theorem C84_failed_is_stopped_partial : forall e w w1 S1 v, v = w1 \/ on_disk S1 v ->
  (tried (recover e) w w1 S1 -> crash log_in_order (recover e) w (durable w) v) /\
  (tried (store_open e) w w1 S1 -> crash log_in_order (store_open e) w (durable w) v).
Proof.
  intros e w w1 S1 v Hv. split; intros Ht; [exact (failed_recover_crash e w w1 S1 v Ht Hv)|exact (failed_open_crash e w w1 S1 v Ht Hv)].
Qed.

Lemma torn_small : log_in_one_read torn_files.
Proof.
  assert (X : match w_key torn_files, w_log torn_files with
    | Some k, Some g => forallb (fun b => b <? 256) k && (blen g <=? 62 + 1024 * num_at 44 2 k)
    | _, _ => false
    end = true) by (vm_compute; reflexivity).
  intros k g Hk Hg. rewrite Hk, Hg in X. apply andb_prop in X as [X Y]. split; [|lia].
  apply Forall_forall. intros b Hb. rewrite forallb_forall in X. specialize (X b Hb). lia.
Qed.

(** Recovery of torn files fails in the middle of the replay with half a bucket written, is tried again and fails in
    the truncation; the third time it succeeds. *)
Example C84_example :
  exists v v', frun 6 0 (recover sample_env) torn_files = (v, Er test_failure, 6) /\ v <> torn_files /\
    frun 9 0 (recover sample_env) v = (v', Er test_failure, 9) /\
    retried sample_env torn_files v' /\
    run (recover sample_env) v' = run (recover sample_env) torn_files.
Proof.
  assert (X : let '(v, r, c) := frun 6 0 (recover sample_env) torn_files in
    let '(v', r', c') := frun 9 0 (recover sample_env) v in
    (r = Er test_failure /\ c = 6 /\ r' = Er test_failure /\ c' = 9) /\
    differ (w_key v) (w_key torn_files) = true /\
    match w_key v, w_log v with
    | Some k, Some g => forallb (fun b => b <? 256) k && (blen g <=? 62 + 1024 * num_at 44 2 k)
    | _, _ => false
    end = true /\
    same_result (run (recover sample_env) v') (run (recover sample_env) torn_files) = true)
    by (vm_compute; repeat split; reflexivity).
  destruct (frun 6 0 (recover sample_env) torn_files) as [[v r] c] eqn:E.
  destruct (frun 9 0 (recover sample_env) v) as [[v' r'] c'] eqn:E'.
  destruct X as ((-> & -> & -> & ->) & X1 & X2 & X3). exists v, v'.
  split; [reflexivity|]. split; [intros ->; revert X1; apply differ_irrefl|]. split; [exact E'|]. split.
  - destruct (frun_possible log_in_order _ _ _ _ _ _ _ (durable torn_files) E) as (S' & HS).
    eapply rt_again; [left; eexists; left; split; [exact torn_small|exact HS]|left; reflexivity|].
    eapply recover_simulated; [|exact E'].
    intros k g Hk Hg. rewrite Hk, Hg in X2. apply andb_prop in X2 as [X Y]. split; [|lia].
    apply Forall_forall. intros b Hb. rewrite forallb_forall in X. specialize (X b Hb). lia.
  - apply same_result_eq. exact X3.
Qed.

(** The second kind of attempt: a bucket cannot be written to the key file. *)
Example C84_write_example :
  exists o k u S1 v, fsteps_but reads_records log_in_order (recover sample_env) torn_files (durable torn_files) (Do o k) u S1 /\
    (exists off d, o = IoWrite FKey false off d) /\
    attempt sample_env torn_files v (sfail log_in_order o u S1) /\
    run (recover sample_env) v = run (recover sample_env) torn_files.
Proof.
  assert (X : match walk 13 (recover sample_env) torn_files with
    | (Do (IoWrite FKey false off d) k, u) =>
      match wget u FKey, k (RErr (EIO 5)) with
      | Some x, Ret _ => same_result (run (recover sample_env) (wset u FKey (Some x))) (run (recover sample_env) torn_files)
      | _, _ => false
      end
    | _ => false
    end = true) by (vm_compute; reflexivity).
  destruct (walk 13 (recover sample_env) torn_files) as [q u] eqn:E.
  destruct (walk_steps reads_records log_in_order 13 _ _ _ _ (durable torn_files) E) as (S1 & HS).
  destruct q as [|o k]; [discriminate X|]. destruct o as [| | | | |f ap off d| |]; try discriminate X.
  destruct f, ap; try discriminate X. destruct (wget u FKey) as [x|] eqn:Hx; [|discriminate X].
  destruct (k (RErr (EIO 5))) as [a|] eqn:Hk; [|discriminate X].
  exists (IoWrite FKey false off d), k, u, S1, (wset u FKey (Some x)).
  split; [exact HS|]. split; [exists off, d; reflexivity|]. split.
  - left. exists (Ret a). right. eapply walk_fail; [exact HS|reflexivity| |rewrite Hk; constructor].
    cbn [failed]. rewrite Hx. cbn [andb]. exists x. split; [reflexivity|]. cbn [log_in_order]. unfold torn_write. split; [lia|auto].
  - apply same_result_eq. exact X.
Qed.

(** Without the proviso: a database with four values and a log of 3132 complete records (all of bucket 0, as it is in the
    key file) and one of bucket 1, cut off behind its header.  recover() gives the database with all values.  But when
    the second read of the log fails, bucket 0 is written over bucket 1, and the next attempt, which finds the last record
    incomplete as before, succeeds without repairing it: a saved value is gone. *)
Theorem C84_large_refuted :
  exists w0 s0 os w w1 S1 w2 w3 v2 s2 v3 s3,
    history sample_env sample_args (map ACall (sample_inserts 4 ++ [OpFlush])) = Some (w0, s0, os) /\
    w_dat w = w_dat w0 /\ w_key w = w_key w0 /\
    run (recover sample_env) w = (w2, Ok tt) /\ same_files w2 w0 /\
    fsteps log_in_order (recover sample_env) w (durable w) (Ret (Er (EIO 5))) w1 S1 /\
    run (recover sample_env) w1 = (w3, Ok tt) /\
    run (store_open sample_env) w2 = (v2, Ok s2) /\
    snd (run (store_fetch sample_env s2 (sample_key 1)) v2) = Ok (sample_val 1) /\
    run (store_open sample_env) w3 = (v3, Ok s3) /\
    snd (run (store_fetch sample_env s3 (sample_key 1)) v3) = Er key_not_found.
Proof.
  assert (H : match history sample_env sample_args (map ACall (sample_inserts 4 ++ [OpFlush])) with
    | Some (w0, _, _) => w_dat w0 = Some four_dat /\ w_key w0 = Some four_key
    | None => False end) by (vm_compute; split; reflexivity).
  destruct (history sample_env sample_args (map ACall (sample_inserts 4 ++ [OpFlush]))) as [[[w0 s0] os]|]; [|destruct H].
  destruct H as [Hd Hk]. destruct large_facts as (R1 & (S1 & R2) & R3). destruct large_effect as (E2 & E3).
  unfold fetched in E2, E3.
  destruct (run (store_open sample_env) (World (Some four_dat) (Some four_key) None)) as [v2 [s2|]] eqn:O2; [|discriminate E2].
  destruct (run (store_open sample_env) (World (Some four_dat) (Some bad_key) None)) as [v3 [s3|er]] eqn:O3.
  2:{ exfalso. assert (X : match snd (run (store_open sample_env) (World (Some four_dat) (Some bad_key) None)) with Ok _ => true | Er _ => false end = true)
        by (vm_compute; reflexivity). rewrite O3 in X. discriminate X. }
  exists w0, s0, os, large_files, large_failed, S1, (World (Some four_dat) (Some four_key) None),
    (World (Some four_dat) (Some bad_key) None), v2, s2, v3, s3.
  split; [reflexivity|]. split; [rewrite Hd; reflexivity|]. split; [rewrite Hk; reflexivity|].
  split; [exact R1|]. split; [split; [rewrite Hd|rewrite Hk]; reflexivity|].
  split; [exact R2|]. split; [exact R3|]. split; [exact O2|]. split; [exact E2|]. split; [exact O3|exact E3].
Qed.

Print Assumptions C83_possible.
Print Assumptions C83_turns.
Print Assumptions C83_no_second_chance.
Print Assumptions C83_flush.
Print Assumptions C84_retry_partial.
Print Assumptions C84_failed_flush_partial.
Print Assumptions C84_failed_is_stopped_partial.
Print Assumptions C84_large_refuted.
