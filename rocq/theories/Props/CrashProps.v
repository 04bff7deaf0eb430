(** C06-C10, C18, C35, C40: stopping the machine, recovery, failing operations. *)
From Verif Require Import Model.Bytes Model.Err Model.Field Model.Format Model.IO Model.BulkIO
  Model.Bucket Model.Pool Model.Recover Model.Create Model.Store Model.History Model.Crash Model.Events
  Spec SpecCrash SpecHeader Proofs.BytesFacts Proofs.IOFacts Proofs.SafeFacts Proofs.FailFacts
  Proofs.RefuseFacts Proofs.CrashTheorems Proofs.Witness Props.Samples Props.CrashSamples.

(** C06.  A database with any past (calls, stops and re-opens); the machine stops
    at any point of any call, and any unsynced part of data and key file is lost
    or torn.  recover() succeeds, and data and key file are as before the call or
    as after the complete call. *)
Theorem C06_stopped_call_all_or_nothing : forall e a M0 evs os M c w1,
  good_args a -> iter_ok e -> started e a M0 -> happened e M0 evs os M ->
  Forall (fun ev => valid_op (ca_key_size a) (event_op ev)) evs -> valid_op (ca_key_size a) c ->
  crash log_in_order (op_prog e (m_store M) c) (m_files M) (m_disk M) w1 ->
  exists w2, run (recover e) w1 = (w2, Ok tt) /\ w_log w2 = None /\
    (same_files w2 (m_files M) \/
     exists w' s', run (op_prog e (m_store M) c) (m_files M) = (w', (Some s', ODone)) /\
       same_files w2 w').
Proof. exact stopped_call. Qed.

(** Half a bucket of garbage in the key file: the files differ from those before
    the flush; recovery restores them. *)
Example C06_example :
  exists M0 S, started sample_env sample_args M0 /\
    happened sample_env M0 (map act_event pending_acts) pending_outs (Mach pending_files S pending_store) /\
    crash log_in_order (op_prog sample_env pending_store OpFlush) pending_files S torn_files /\
    w_key torn_files <> w_key pending_files /\
    exists w2, run (recover sample_env) torn_files = (w2, Ok tt) /\ same_files w2 pending_files.
Proof.
  destruct (history_happened _ _ _ _ _ _ pending_computed) as (M0 & S & Hs & Hh & Hd).
  exists M0, S. splits; [exact Hs|exact Hh|exact (torn_crash S Hd)|vm_compute; discriminate|].
  destruct (run (recover sample_env) torn_files) as [w2 r] eqn:E.
  assert (X : match run (recover sample_env) torn_files with
    (w, Ok _) => w_dat w = w_dat pending_files /\ w_key w = w_key pending_files | _ => False end)
    by (vm_compute; split; reflexivity).
  rewrite E in X. destruct r as [[]|]; [|contradiction]. exists w2. split; [reflexivity|exact X].
Qed.

(** C06, C07.  All histories of calls and stops: the answers are those of a map of
    which a stop loses at most what has not been flushed, a flush that was stopped
    having saved everything or nothing. *)
Theorem C06_histories_with_stops : forall e a M0 evs os M,
  good_args a -> iter_ok e -> started e a M0 -> happened e M0 evs os M ->
  Forall (fun ev => valid_op (ca_key_size a) (event_op ev)) evs ->
  exists m d, spec_events sempty sempty evs os m d.
Proof. exact histories_with_stops. Qed.

Example C06_histories_example :
  exists M0 M, started sample_env sample_args M0 /\
    happened sample_env M0 (map act_event stops_acts)
      (repeat OInserted 12 ++ [ODone; OInserted; ONotFound; OFound (sample_val 3);
         OInserted; ODone; OInserted; OFound [7]; OFound [8]]) M.
Proof.
  pose proof stops_computed as X.
  destruct (history sample_env sample_args stops_acts) as [[[w s] os]|] eqn:E; [|contradiction].
  subst os. destruct (history_happened _ _ _ _ _ _ E) as (M0 & S & Hs & Hh & _).
  exists M0, (Mach w S s). split; [exact Hs|exact Hh].
Qed.

(** C07.  What is found when a flush returns is found ever after, whatever calls
    and stops follow. *)
Theorem C07_flushed_is_durable : forall e a M0 evs os M M1 evs2 os2 M2 k v w,
  good_args a -> iter_ok e -> started e a M0 -> happened e M0 evs os M ->
  happens e M (Call OpFlush) [ODone] M1 -> happened e M1 evs2 os2 M2 ->
  Forall (fun ev => valid_op (ca_key_size a) (event_op ev)) evs ->
  Forall (fun ev => valid_op (ca_key_size a) (event_op ev)) evs2 ->
  blen k = ca_key_size a ->
  run (store_fetch e (m_store M) k) (m_files M) = (w, Ok v) ->
  run (store_fetch e (m_store M2) k) (m_files M2) = (m_files M2, Ok v).
Proof. exact flush_keeps. Qed.

(** Pending inserts are flushed, the machine is stopped in the next flush. *)
Definition later_acts : list act :=
  [ACall (OpInsert (sample_key 79) [9; 9; 9]); AStop OpFlush 13 [5%nat]; AStop (OpFetch (sample_key 79)) 0 []].
Example C07_example :
  exists M0 S M1 M2, started sample_env sample_args M0 /\
    happened sample_env M0 (map act_event pending_acts) pending_outs (Mach pending_files S pending_store) /\
    happens sample_env (Mach pending_files S pending_store) (Call OpFlush) [ODone] M1 /\
    happened sample_env M1 (map act_event later_acts) [OInserted] M2 /\
    run (store_fetch sample_env pending_store (sample_key 77)) pending_files = (pending_files, Ok [7; 7]).
Proof.
  destruct (history_happened _ _ _ _ _ _ pending_computed) as (M0 & S & Hs & Hh & Hd).
  assert (X : match do_act sample_env pending_files pending_store (ACall OpFlush) with
     | Some (w, s, o) => o = [ODone] /\
        match do_acts sample_env w s later_acts with Some (_, _, os) => os = [OInserted] | None => False end
     | None => False end) by (vm_compute; split; reflexivity).
  destruct (do_act sample_env pending_files pending_store (ACall OpFlush)) as [[[w s] o]|] eqn:E1; [|contradiction].
  destruct X as [-> X].
  destruct (do_acts sample_env w s later_acts) as [[[w2 s2] os2]|] eqn:E2; [|contradiction]. subst os2.
  destruct (do_act_happens _ _ _ _ _ _ _ S Hd E1) as (S1 & H1 & Hd1).
  destruct (do_acts_happened _ _ _ _ _ _ _ S1 Hd1 E2) as (S2' & H2 & _).
  exists M0, S, (Mach w S1 s), (Mach w2 S2' s2).
  splits; [exact Hs|exact Hh|exact H1|exact H2|vm_compute; reflexivity].
Qed.

(** C08.  Recovery of whatever a stopped call left, itself stopped any number of
    times (whether run by recover() or by open()), ends with the files of one
    uninterrupted run, and recovering these again changes nothing. *)
Theorem C08_recovery_repeatable : forall e a M0 evs os M c w1 w2 r w',
  good_args a -> iter_ok e -> started e a M0 -> happened e M0 evs os M ->
  Forall (fun ev => valid_op (ca_key_size a) (event_op ev)) evs -> valid_op (ca_key_size a) c ->
  crash log_in_order (op_prog e (m_store M) c) (m_files M) (m_disk M) w1 ->
  run (recover e) w1 = (w2, r) -> interrupted log_in_order e w1 w' ->
  r = Ok tt /\ run (recover e) w' = (w2, Ok tt) /\ run (recover e) w2 = (w2, Ok tt) /\
  exists w3 s3, run (store_open e) w' = (w3, Ok s3) /\ same_files w3 w2.
Proof. exact recovery_repeatable. Qed.

(** Recovery of the torn files above stopped in the middle of the replay. *)
Example C08_example :
  exists w', interrupted log_in_order sample_env torn_files w' /\ w' <> torn_files /\
    run (recover sample_env) w' = run (recover sample_env) torn_files.
Proof.
  assert (X : match after_ops 12 (recover sample_env) torn_files with
      | Some (_, w) => differ (w_key w) (w_key torn_files) = true
      | None => False end) by (vm_compute; reflexivity).
  assert (Y : match after_ops 12 (recover sample_env) torn_files with
      | Some (_, w) => same_result (run (recover sample_env) w) (run (recover sample_env) torn_files) = true
      | None => False end) by (vm_compute; reflexivity).
  destruct (after_ops 12 (recover sample_env) torn_files) as [[q w']|] eqn:E; [|contradiction].
  exists w'. splits.
  - eapply int_recover; [eapply crash_after; [exact E|apply durable_live]|constructor].
  - intros ->. revert X. apply differ_irrefl.
  - apply same_result_eq. exact Y.
Qed.

(** C09.  Any files, healthy or not, whose data file header is valid and whose key
    file has more than a header; no log, or one shorter than its header. *)
Theorem C09_clean_recover : forall e w d k,
  w_dat w = Some d -> w_key w = Some k -> bytes_ok d -> 92 <= blen d -> 104 < blen k ->
  first_failed (dat_checks d) = None ->
  match w_log w with None => True | Some l => blen l < 62 end ->
  run (recover e) w = (World (Some d) (Some k) None, Ok tt) /\
  run (recover e) (World (Some d) (Some k) None) = (World (Some d) (Some k) None, Ok tt).
Proof. exact clean_recover. Qed.

Example C09_example :
  exists d k, w_dat pending_files = Some d /\ w_key pending_files = Some k /\ bytes_ok d /\
    92 <= blen d /\ 104 < blen k /\ first_failed (dat_checks d) = None /\ w_log pending_files = Some [].
Proof.
  do 2 eexists. splits; try (vm_compute; first [reflexivity|discriminate]).
  apply Forall_forall. intros x Hx. apply N.ltb_lt.
  revert x Hx. apply forallb_forall. vm_compute. reflexivity.
Qed.

(** C10.  At every point of a flush, whether operations succeed or fail, the data
    file begins with its contents before the flush. *)
Theorem C10_data_append_only : forall e s w S q w' S' d,
  w_dat w = Some d -> fsteps log_in_order (store_flush e s) w S q w' S' ->
  exists x, w_dat w' = Some (d ++ x).
Proof. exact data_append_only. Qed.

(** The flush of the pending store appends. *)
Example C10_example :
  exists S' q, fsteps log_in_order (store_flush sample_env pending_store) pending_files (durable pending_files)
    (Ret q) (fst (run (store_flush sample_env pending_store) pending_files)) S' /\
    w_dat (fst (run (store_flush sample_env pending_store) pending_files)) <> w_dat pending_files.
Proof.
  destruct (fsteps_run log_in_order (store_flush sample_env pending_store) pending_files (durable pending_files))
    as (S' & H). do 2 eexists. split; [exact H|vm_compute; discriminate].
Qed.

(** C18.  A flush in which any operations fail, with any partial effect, and which
    returns with an error: insert, fetch, flush and close report that error and
    leave the files alone (so the log stays). *)
Theorem C18_error_final : forall e s er w,
  st_ec s = Some er ->
  (forall k v, run (store_insert e s k v) w = (w, Er er)) /\
  (forall k, run (store_fetch e s k) w = (w, Er er)) /\
  (exists s', run (store_flush e s) w = (w, s') /\ st_ec s' = Some er) /\
  run (store_close e s) w = (w, Er er).
Proof. exact (fun e s er w H => failed_store e s er w H). Qed.

(** C18.  An operation failing in a flush does put the store in that state. *)
Theorem C18_error_reported : forall e s w S o k w1 S1 n w2 s' w' S',
  st_ec s = None ->
  fsteps log_in_order (store_flush e s) w S (Do o k) w1 S1 -> failed log_in_order o w1 w2 ->
  fsteps log_in_order (k (RErr (EIO n))) w2 (sfail log_in_order o w1 S1) (Ret s') w' S' ->
  st_ec s' = Some (EIO n) /\ w' = w2.
Proof. exact error_reported. Qed.

(** C18.  After a flush in which operations failed, recover() (run after the
    process ends, or after the machine stops) yields the files before the flush or
    those after the complete one. *)
Theorem C18_recover_after_failure : forall e a M0 evs os M q w' S' w1,
  good_args a -> iter_ok e -> started e a M0 -> happened e M0 evs os M ->
  Forall (fun ev => valid_op (ca_key_size a) (event_op ev)) evs ->
  fsteps log_in_order (store_flush e (m_store M)) (m_files M) (m_disk M) q w' S' ->
  w1 = w' \/ on_disk S' w1 ->
  exists w2, run (recover e) w1 = (w2, Ok tt) /\ w_log w2 = None /\
    (same_files w2 (m_files M) \/
     exists w3 s3, run (op_prog e (m_store M) OpFlush) (m_files M) = (w3, (Some s3, ODone)) /\
       same_files w2 w3).
Proof. exact recover_after_failure. Qed.

(** The write of the first bucket fails, leaving garbage. *)
Example C18_example :
  exists M0 S s' S', started sample_env sample_args M0 /\
    happened sample_env M0 (map act_event pending_acts) pending_outs (Mach pending_files S pending_store) /\
    fsteps log_in_order (store_flush sample_env pending_store) pending_files S (Ret s') torn_files S' /\
    st_ec s' = Some (EIO 5).
Proof.
  destruct (history_happened _ _ _ _ _ _ pending_computed) as (M0 & S & Hs & Hh & Hd).
  destruct (torn_failure S) as (s' & S' & Hf & He). exists M0, S, s', S'. splits; assumption.
Qed.

(** C35.  Every write of a flush to data or log file starts at its end. *)
Theorem C35_appends_at_end : forall e a M0 evs os M S f ap off d k w1 S1,
  good_args a -> iter_ok e -> started e a M0 -> happened e M0 evs os M ->
  Forall (fun ev => valid_op (ca_key_size a) (event_op ev)) evs ->
  fsteps log_in_order (store_flush e (m_store M)) (m_files M) S (Do (IoWrite f ap off d) k) w1 S1 ->
  f <> FKey -> exists c, wget w1 f = Some c /\ off = blen c.
Proof. exact appends_at_end. Qed.

(** Such writes occur: the log records of the pending flush. *)
Example C35_example :
  exists d k w1 S1, fsteps log_in_order (store_flush sample_env pending_store) pending_files
    (durable pending_files) (Do (IoWrite FLog true 62 d) k) w1 S1 /\ blen d = 264.
Proof.
  assert (X : match after_ops 10 (store_flush sample_env pending_store) pending_files with
     | Some (Do (IoWrite FLog true off d) _, w) => off = 62 /\ blen d = 264
     | _ => False end) by (vm_compute; split; reflexivity).
  destruct (after_ops 10 (store_flush sample_env pending_store) pending_files) as [[q w1]|] eqn:E; [|contradiction].
  destruct q as [r|[ | | | | |[] [] off d| | ] k]; try contradiction. destruct X as [-> X].
  destruct (after_steps log_in_order _ _ _ _ _ (durable pending_files) E) as (S1 & Hs).
  exists d, k, w1, S1. split; [apply steps_fsteps; exact Hs|exact X].
Qed.

(** C40, refuted.  If the unsynced records of the log may be found as zeros (the
    file has grown but the data has not been written), recover() and open()
    succeed and a key saved by an earlier flush is gone. *)
Definition zero_log_program := Eval vm_compute in
  match after_ops 10 (store_flush sample_env pending_store) pending_files with
  | Some (_, w) => w
  | None => no_files
  end.
Definition zero_log_files : world := Eval vm_compute in
  match w_log zero_log_program with
  | Some l => wset zero_log_program FLog (Some (bwrite 62 (zeros 264) l))
  | None => zero_log_program
  end.

Theorem C40_torn_log_refuted : exists e a l w s k v w1 w2 s2,
  good_args a /\ iter_ok e /\ Forall (valid_op (ca_key_size a)) (l ++ [OpFlush]) /\
  (exists w0 s0, lived e a (l ++ [OpFlush]) w0 s0 /\ run (store_fetch e s0 k) w0 = (w0, Ok v)) /\
  (exists l2, lived e a ((l ++ [OpFlush]) ++ l2) w s) /\
  crash no_order (store_flush e s) w (durable w) w1 /\
  run (store_open e) w1 = (w2, Ok s2) /\
  run (store_fetch e s2 k) w2 = (w2, Er key_not_found).
Proof.
  destruct (run (store_open sample_env) zero_log_files) as [w2 r] eqn:E.
  assert (X : match run (store_open sample_env) zero_log_files with
    | (w2, Ok s2) => run (store_fetch sample_env s2 (sample_key 7)) w2 = (w2, Er key_not_found)
    | _ => False end) by (vm_compute; reflexivity).
  rewrite E in X. destruct r as [s2|]; [|contradiction].
  exists sample_env, sample_args, (sample_inserts 30), pending_files, pending_store, (sample_key 7), (sample_val 7),
    zero_log_files, w2, s2.
  splits; [exact sample_args_good|exact sample_env_ok|repeat constructor| | | |exact E|exact X].
  - destruct (life sample_env sample_args (sample_inserts 30 ++ [OpFlush])) as [[w0 [s0|]] os] eqn:E0.
    + exists w0, s0. split; [exists os; exact E0|].
      assert (Y : match life sample_env sample_args (sample_inserts 30 ++ [OpFlush]) with
        | (w0, Some s0, _) => run (store_fetch sample_env s0 (sample_key 7)) w0 = (w0, Ok (sample_val 7))
        | _ => False end) by (vm_compute; reflexivity).
      rewrite E0 in Y. exact Y.
    + exfalso. assert (Y : match life sample_env sample_args (sample_inserts 30 ++ [OpFlush]) with
        | (_, Some _, _) => true | _ => false end = true) by (vm_compute; reflexivity).
      rewrite E0 in Y. discriminate Y.
  - exists [OpInsert (sample_key 77) [7; 7]; OpInsert (sample_key 78) [8]], pending_outs. vm_compute. reflexivity.
  - destruct (after_ops 10 (store_flush sample_env pending_store) pending_files) as [[q w1]|] eqn:E1.
    2:{ exfalso. assert (Y : match after_ops 10 (store_flush sample_env pending_store) pending_files with
        | None => false | Some _ => true end = true) by (vm_compute; reflexivity).
        rewrite E1 in Y. discriminate Y. }
    assert (Y : match after_ops 10 (store_flush sample_env pending_store) pending_files with
       | Some (Do (IoWrite FLog true off d) _, w) => off = 62 /\ blen d = 264 /\ w = zero_log_program
       | _ => False end) by (vm_compute; splits; reflexivity).
    rewrite E1 in Y. destruct q as [r|[ | | | | |[] [] off d| | ] k]; try contradiction. destruct Y as (-> & Y & ->).
    assert (El : exists lf, w_log zero_log_program = Some lf /\ blen lf = 62 /\
        zero_log_files = wset zero_log_program FLog (Some (bwrite 62 (zeros 264) lf))).
    { eexists. splits; vm_compute; reflexivity. }
    destruct El as (lf & El & El2 & ->).
    eapply crash_writing; [exact E1|apply durable_live|reflexivity|exact El|rewrite El2; reflexivity|].
    replace (blen d) with (blen (zeros 264)) by (rewrite Y; reflexivity). apply torn_write_full.
Qed.

Print Assumptions C06_stopped_call_all_or_nothing.
Print Assumptions C06_histories_with_stops.
Print Assumptions C07_flushed_is_durable.
Print Assumptions C08_recovery_repeatable.
Print Assumptions C09_clean_recover.
Print Assumptions C10_data_append_only.
Print Assumptions C18_error_final.
Print Assumptions C18_error_reported.
Print Assumptions C18_recover_after_failure.
Print Assumptions C35_appends_at_end.
Print Assumptions C40_torn_log_refuted.
