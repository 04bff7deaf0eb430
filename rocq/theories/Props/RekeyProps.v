(** C20, C21, C42: rekey(). *)
From Verif Require Import Model.Bytes Model.Err Model.Field Model.Format Model.IO Model.BulkIO
  Model.Bucket Model.Pool Model.Recover Model.Create Model.Store Model.History Model.Crash Model.Rekey
  Model.RekeyLife Model.Verify Spec SpecHeader SpecRekey
  Proofs.BytesFacts Proofs.IOFacts Proofs.SafeFacts Proofs.RefuseFacts Proofs.Witness Proofs.RekeyTheorems
  Props.Samples.

(** C20.  A program may replace the key file of its database at any point, by closing
    the store, erasing the key file, calling rekey() and opening the store again: whatever
    block size, load factor, number of buckets and buffer size it chooses, and however
    often it does so, all its calls are answered as if it had merely closed and opened
    the store. *)
Theorem C20_rekey_transparent : forall e a l,
  good_args a -> iter_ok e -> Forall (valid_xop (ca_key_size a)) l -> within_xlimit e a l ->
  snd (xlife e a l) = spec_outs sempty (map as_reopen l).
Proof. exact xlife_answers. Qed.

(** C20 without the bound on the size: the answers are those of a store that was merely
    reopened, up to a possible abort when the data file has come near its limit. *)
Theorem C20_never_a_wrong_answer : forall e a l,
  good_args a -> iter_ok e -> Forall (valid_xop (ca_key_size a)) l ->
  snd (xlife e a l) = spec_outs sempty (map as_reopen l) \/
  ~ within_xlimit e a l /\ exists n, (n < length l)%nat /\
    snd (xlife e a l) = firstn n (spec_outs sempty (map as_reopen l)) ++ [OAborted].
Proof. exact xlife_prefix. Qed.

(** C20.  rekey() succeeds on the data file of every closed database; it only appends to
    the data file and makes a key file of the size asked for.  (Except when close() or
    rekey() aborts because the data file has come near its limit.) *)
Theorem C20_rekey_files : forall e a l r w s os,
  good_args a -> iter_ok e -> Forall (valid_xop (ca_key_size a)) l -> good_rekey r ->
  xlife e a l = (w, Some s, os) ->
  (exists d k, run (store_close e s) w = (World (Some d) (Some k) None, Ok tt) /\
    exists x k' t,
      run (rekey e r) (World (Some d) None None) = (World (Some (d ++ x)) (Some k') None, Ok t) /\
      forall nb, ra_buckets r = Some nb -> blen k' = (nb + 1) * ra_block_size r) \/
  (~ small_xhistory (l ++ [XRekey r]) /\ exists w', near_limit w' /\
    (run (store_close e s) w = (w', Er EAssert) \/
     exists d k, run (store_close e s) w = (World (Some d) (Some k) None, Ok tt) /\
       run (rekey e r) (World (Some d) None None) = (w', Er EAssert))).
Proof.
  intros e a l r w s os H1 H2 H3 H4 H5.
  destruct (rekey_lived e a l r w s os H1 H2 H3 H4 H5) as [(d & k & B & x & k' & t & C & D)|X]; [left|right; exact X].
  exists d, k. split; [exact B|]. exists x, k', t. split; [exact C|].
  intros nb Hn. apply (D nb Hn).
Qed.

(** C42.  The calls of progress that a successful rekey() makes: the total never changes,
    the amounts never decrease and never exceed the total. *)
Theorem C42_rekey_progress : forall e a l r nb w s os d k w' t,
  good_args a -> iter_ok e -> Forall (valid_xop (ca_key_size a)) l -> good_rekey r ->
  xlife e a l = (w, Some s, os) -> run (store_close e s) w = (World (Some d) (Some k) None, Ok tt) ->
  run (rekey e r) (World (Some d) None None) = (w', Ok t) ->
  ra_buckets r = Some nb -> ra_buffer_size r < 2 ^ 64 -> nb * blen d < 2 ^ 64 ->
  exists total, reports 0 total t.
Proof.
  intros e a l r nb w s os d k w' t H1 H2 H3 H4 H5 HC HR H6 H7 H8.
  destruct (rekey_lived e a l r w s os H1 H2 H3 H4 H5)
    as [(d' & k' & B & x & kk & t' & C & D)|(_ & w'' & _ & [B|(d' & k' & B & C)])].
  - assert (d' = d) by congruence. subst d'. assert (t' = t) by congruence. subst t'.
    destruct (D nb H6) as [_ X]. exact (X H7 H8).
  - congruence.
  - assert (d' = d) by congruence. subst d'. congruence.
Qed.

(** C21.  Let rekey() be called with any data file [d] (with a valid header, whatever
    follows it) and be stopped at any point before it has returned successfully, or
    return an error.  Then recover() restores the data file to exactly [d] and no key or
    log file remains.  (recover() reports success, or that there is no key file.) *)
Theorem C21_rekey_stopped : forall e r w d,
  good_rekey r -> w_dat w = Some d -> w_key w = None -> w_log w = None ->
  bytes_ok d -> 92 <= blen d -> blen d < 2 ^ 64 -> first_failed (dat_checks d) = None ->
  forall p1 w1 S1 v,
    steps log_in_order (rekey e r) w (durable w) p1 w1 S1 -> (forall t, p1 <> Ret (Ok t)) -> on_disk S1 v ->
    exists res, run (recover e) v = (World (Some d) None None, res) /\
      (res = Ok tt \/ res = Er no_key_file \/ res = Er ENoEnt).
Proof. intros. eapply rekey_stopped; eauto. Qed.

(** C21.  The same when any number of recoveries are themselves stopped at any point: the
    data file never loses a byte of [d], and once a recovery is not stopped it is exactly
    [d].  (About the key file see below.) *)
Theorem C21_recovery_stopped : forall e r w d,
  good_rekey r -> w_dat w = Some d -> w_key w = None -> w_log w = None ->
  bytes_ok d -> 92 <= blen d -> blen d < 2 ^ 64 -> first_failed (dat_checks d) = None ->
  forall p1 w1 S1 v v',
    steps log_in_order (rekey e r) w (durable w) p1 w1 S1 -> (forall t, p1 <> Ret (Ok t)) -> on_disk S1 v ->
    interrupted log_in_order e v v' ->
    (exists x, w_dat v' = Some (d ++ x)) /\
    forall w2 res, run (recover e) v' = (w2, res) -> w_dat w2 = Some d.
Proof. intros. eapply rekey_recovery_stopped; eauto. Qed.

(** C21.  Wherever rekey() is stopped, also after it has returned, the data file still
    begins with all of [d]. *)
Theorem C21_data_kept : forall e r w d,
  good_rekey r -> w_dat w = Some d -> w_key w = None -> w_log w = None ->
  bytes_ok d -> 92 <= blen d -> blen d < 2 ^ 64 -> first_failed (dat_checks d) = None ->
  forall v, crash log_in_order (rekey e r) w (durable w) v -> exists x, w_dat v = Some (d ++ x).
Proof. intros. eapply rekey_data_kept; eauto. Qed.

(** ** Concrete cases *)
Definition sample_rekey : rekey_args := RekeyArgs 33 120 (FVal 3 4) (Some 3) 250.
Definition sample_rekey2 : rekey_args := RekeyArgs 34 104 (FVal 1 2) (Some 5) 1000.

Lemma sample_rekey_good : good_rekey sample_rekey /\ good_rekey sample_rekey2.
Proof. split; vm_compute; repeat split; discriminate. Qed.

Definition sample_xlife : list xop :=
  map XCall (sample_inserts 30) ++ [XRekey sample_rekey] ++
  map XCall [OpFetch (sample_key 7); OpInsert (sample_key 7) [1]; OpInsert (sample_key 77) [7; 7]; OpFetch [9; 9]] ++
  [XRekey sample_rekey2; XCall (OpFetch (sample_key 77)); XCall (OpFetch (sample_key 12))].

Example C20_sample :
  Forall (valid_xop (ca_key_size sample_args)) sample_xlife /\ small_xhistory sample_xlife /\
  small_xhistory (map XCall (sample_inserts 30) ++ [XRekey sample_rekey]) /\
  snd (xlife sample_env sample_args sample_xlife) =
    repeat OInserted 30 ++ [ODone; OFound (sample_val 7); OKeyExists; OInserted; ONotFound; ODone;
      OFound [7; 7]; OFound (sample_val 12)].
Proof.
  split.
  { unfold sample_xlife. repeat (apply Forall_app; split).
    - repeat constructor.
    - constructor; [apply sample_rekey_good|constructor].
    - repeat constructor.
    - constructor; [apply sample_rekey_good|]. repeat constructor. }
  split; [reflexivity|]. split; [reflexivity|]. vm_compute. reflexivity.
Qed.

(** A closed database of thirty values without its key file. *)
Definition closed_files : world := Eval vm_compute in
  match xlife sample_env sample_args (map XCall (sample_inserts 30)) with
  | (w, Some s, _) => fst (run (store_close sample_env s) w)
  | _ => no_files
  end.
Definition data_only : world := Eval vm_compute in World (w_dat closed_files) None None.
Definition closed_data : bytes := Eval vm_compute in match w_dat closed_files with Some d => d | None => [] end.

Lemma data_only_ok :
  w_dat data_only = Some closed_data /\ w_key data_only = None /\ w_log data_only = None /\
  bytes_ok closed_data /\ 92 <= blen closed_data /\ blen closed_data < 2 ^ 64 /\
  first_failed (dat_checks closed_data) = None.
Proof.
  split; [reflexivity|]. split; [reflexivity|]. split; [reflexivity|]. split.
  { apply Forall_forall. intros x Hx.
    assert (H : forallb (fun x => x <? 256) closed_data = true) by (vm_compute; reflexivity).
    rewrite forallb_forall in H. apply N.ltb_lt. exact (H x Hx). }
  split; [vm_compute; discriminate|]. split; vm_compute; reflexivity.
Qed.

Lemma sample_closed :
  Forall (valid_xop (ca_key_size sample_args)) (map XCall (sample_inserts 30)) /\
  exists w s d k,
    xlife sample_env sample_args (map XCall (sample_inserts 30)) =
      (w, Some s, spec_outs sempty (map as_reopen (map XCall (sample_inserts 30)))) /\
    run (store_close sample_env s) w = (World (Some d) (Some k) None, Ok tt) /\
    World (Some d) None None = data_only.
Proof.
  assert (V : Forall (valid_xop (ca_key_size sample_args)) (map XCall (sample_inserts 30))) by repeat constructor.
  split; [exact V|].
  destruct (xlived_small sample_env sample_args (map XCall (sample_inserts 30)) sample_args_good sample_env_ok V eq_refl) as (w & s & A).
  destruct (C20_rekey_files sample_env sample_args (map XCall (sample_inserts 30)) sample_rekey w s _
    sample_args_good sample_env_ok V (proj1 sample_rekey_good) A)
    as [(d & k & B & _)|[X _]]; [|destruct (X (proj1 (proj2 (proj2 C20_sample))))].
  exists w, s, d, k. split; [exact A|]. split; [exact B|].
  assert (D : w_dat closed_files = Some d).
  { assert (X : (match xlife sample_env sample_args (map XCall (sample_inserts 30)) with
      | (w, Some s, _) => obeq (w_dat (fst (run (store_close sample_env s) w))) (w_dat closed_files)
      | _ => false end) = true) by (vm_compute; reflexivity).
    rewrite A in X. rewrite B in X. cbn [fst w_dat] in X. symmetry. apply obeq_eq. exact X. }
  rewrite <- D. reflexivity.
Qed.

Example C42_sample :
  match run (rekey sample_env sample_rekey) data_only with
  | (_, Ok t) => length t = 63%nat /\ hd (1, 1) t = (0, 1116) /\ last t (0, 0) = (1016, 1116) /\ reports 0 1116 t
  | _ => False
  end.
Proof. vm_compute. repeat (split; [first [reflexivity|split; discriminate]|]). exact I. Qed.

(** Files after [n] operations of rekey(), and of a recovery. *)
Definition rekey_at (n : nat) : option (prog (res (list (N * N))) * world) :=
  after_ops n (rekey sample_env sample_rekey) data_only.

Definition same_files_b (w w' : world) : bool := same_result (w, Ok tt) (w', Ok tt).
Lemma same_files_b_eq w w' : same_files_b w w' = true -> w = w'.
Proof. intros H. exact (f_equal fst (same_result_eq _ _ H)). Qed.

(** Stopped before the log is erased: the key file is complete and the data file has
    received a spill record. *)
Definition mid_files : world := Eval vm_compute in
  match rekey_at 19 with Some (_, w) => w | None => no_files end.
Example C21_sample : exists p1 w1 S1,
  steps log_in_order (rekey sample_env sample_rekey) data_only (durable data_only) p1 w1 S1 /\
  (forall t, p1 <> Ret (Ok t)) /\ on_disk S1 mid_files /\ w_dat mid_files <> Some closed_data /\
  run (recover sample_env) mid_files = (data_only, Ok tt).
Proof.
  assert (X : match rekey_at 19 with
    | Some (Do (IoErase FLog) _, w1) => same_files_b w1 mid_files = true
    | _ => False end) by (vm_compute; reflexivity).
  assert (R : run (recover sample_env) mid_files = (data_only, Ok tt)) by (vm_compute; reflexivity).
  assert (Y : differ (w_dat mid_files) (Some closed_data) = true) by (vm_compute; reflexivity).
  destruct (rekey_at 19) as [[q w1]|] eqn:E; [|contradiction X].
  destruct q as [r|o k]; [contradiction X|].
  assert (W : w1 = mid_files).
  { destruct o as [f|f|f|f|f off len|f ap off d|f|f n]; try contradiction X.
    destruct f; try contradiction X. apply same_files_b_eq. exact X. }
  clear X. destruct (after_steps log_in_order 19 _ _ _ _ (durable data_only) E) as (S1 & Hs).
  exists (Do o k), w1, S1. split; [exact Hs|]. split; [intros t; discriminate|].
  split; [rewrite <- W; eapply live_steps; [exact Hs|apply durable_live]|].
  split; [|exact R]. apply differ_neq. exact Y.
Qed.

(** ** What does not hold *)

(** C21.  Once rekey() has returned success the database can still be lost.  It erases the
    log without a sync of the buckets it has written to the key file: if the machine stops
    then, the log may be gone while the buckets still are empty.  recover() does nothing,
    the store opens, and no value is found. *)
Definition lost_files : world := Eval vm_compute in
  match rekey_at 14, rekey_at 20 with
  | Some (_, w1), Some (_, w2) => wset w2 FKey (w_key w1)
  | _, _ => no_files
  end.
Theorem C21_rekey_durable_refuted : exists e a l r w s d k key value,
  good_args a /\ iter_ok e /\ Forall (valid_xop (ca_key_size a)) l /\ good_rekey r /\
  xlife e a l = (w, Some s, spec_outs sempty (map as_reopen l)) /\
  spec_final sempty (map as_reopen l) key = Some value /\
  run (store_close e s) w = (World (Some d) (Some k) None, Ok tt) /\
  exists t w1 S1 v v' s',
    let files := World (Some d) None None in
    steps log_in_order (rekey e r) files (durable files) (Ret (Ok t)) w1 S1 /\ on_disk S1 v /\
    run (recover e) v = (v, Ok tt) /\ run (store_open e) v = (v', Ok s') /\
    run (store_fetch e s' key) v' = (v', Er key_not_found).
Proof.
  destruct sample_closed as (V & w & s & d & k & A & B & F).
  exists sample_env, sample_args, (map XCall (sample_inserts 30)), sample_rekey, w, s, d, k, (sample_key 7), (sample_val 7).
  split; [exact sample_args_good|]. split; [exact sample_env_ok|]. split; [exact V|].
  split; [apply sample_rekey_good|]. split; [exact A|]. split; [vm_compute; reflexivity|]. split; [exact B|].
  assert (X : match rekey_at 14 with
    | Some (p1, w1) =>
      match after_ops 6 p1 w1 with
      | Some (Ret (Ok _), w2) =>
        no_sync 6 FKey p1 w1 && same_files_b (wset w2 FKey (wget w1 FKey)) lost_files = true
      | _ => False end
    | _ => False end) by (vm_compute; reflexivity).
  assert (R : same_result (run (recover sample_env) lost_files) (lost_files, Ok tt) = true) by (vm_compute; reflexivity).
  assert (O : match run (store_open sample_env) lost_files with
    | (v', Ok s') => match run (store_fetch sample_env s' (sample_key 7)) v' with
                     | (v'', Er key_not_found) => same_files_b v'' v' = true | _ => False end
    | _ => False end) by (vm_compute; reflexivity).
  destruct (rekey_at 14) as [[p1 w1]|] eqn:E1; [|contradiction X].
  destruct (after_ops 6 p1 w1) as [[p2 w2]|] eqn:E2; [|contradiction X].
  destruct p2 as [[t|er]|o k0]; try contradiction X. apply andb_prop in X as [X1 X2].
  apply same_files_b_eq in X2.
  destruct (steps_lost log_in_order 14 6 FKey _ data_only (durable data_only) _ _ _ _ E1 E2 X1 (durable_live _))
    as (S2 & Hs & Hd).
  rewrite X2 in Hd.
  destruct (run (store_open sample_env) lost_files) as [v' [s'|er]] eqn:EO; [|contradiction O].
  exists t, w2, S2, lost_files, v', s'. rewrite F.
  split; [exact Hs|]. split; [exact Hd|]. split; [apply same_result_eq; exact R|]. split; [exact EO|].
  destruct (run (store_fetch sample_env s' (sample_key 7)) v') as [v'' [b|er]]; [contradiction O|].
  destruct er; try contradiction O. apply same_files_b_eq in O. rewrite O. reflexivity.
Qed.

(** Files after [n] operations of the recovery of [mid_files]. *)
Definition recover_at (n : nat) : option (prog (res unit) * world) :=
  after_ops n (recover sample_env) mid_files.
Definition stuck_files : world := Eval vm_compute in
  match recover_at 11 with Some (_, w) => w | None => no_files end.
Definition left_files : world := Eval vm_compute in
  match recover_at 10, recover_at 14 with
  | Some (_, w1), Some (_, w2) => wset w2 FKey (w_key w1)
  | _, _ => no_files
  end.

(** C21.  A recovery from an interrupted rekey() is not repeatable.
    - Stopped between the removal of the key file and that of the log, it can neither be
      finished nor can rekey() be called again: recover() demands the key file that it has
      itself erased, and rekey() refuses to run while there is a log.
    - Stopped later, the removal of the key file may not have reached the disk, although
      that of the log has: the partial key file stays, and recover() reports success. *)
Theorem C21_recovery_repeatable_refuted : exists e r w d p1 w1 S1 v,
  good_rekey r /\ w_dat w = Some d /\ w_key w = None /\ w_log w = None /\
  bytes_ok d /\ 92 <= blen d /\ blen d < 2 ^ 64 /\ first_failed (dat_checks d) = None /\
  steps log_in_order (rekey e r) w (durable w) p1 w1 S1 /\ (forall t, p1 <> Ret (Ok t)) /\ on_disk S1 v /\
  (exists v', interrupted log_in_order e v v' /\
     run (recover e) v' = (v', Er ENoEnt) /\ run (rekey e r) v' = (v', Er log_file_exists)) /\
  (exists v', interrupted log_in_order e v v' /\ w_key v' <> None /\ run (recover e) v' = (v', Ok tt)).
Proof.
  destruct C21_sample as (p1 & w1 & S1 & H1 & H2 & H3 & _ & _).
  destruct data_only_ok as (D1 & D2 & D3 & D4 & D5 & D6 & D7).
  exists sample_env, sample_rekey, data_only, closed_data, p1, w1, S1, mid_files.
  repeat (split; [first [apply sample_rekey_good | assumption]|]). split.
  - exists stuck_files.
    assert (X : match recover_at 11 with Some (_, w) => same_files_b w stuck_files = true | None => False end)
      by (vm_compute; reflexivity).
    assert (R : match run (recover sample_env) stuck_files with
                | (w, Er ENoEnt) => same_files_b w stuck_files = true | _ => False end) by (vm_compute; reflexivity).
    assert (K : match run (rekey sample_env sample_rekey) stuck_files with
                | (w, Er log_file_exists) => same_files_b w stuck_files = true | _ => False end)
      by (vm_compute; reflexivity).
    destruct (recover_at 11) as [[q w]|] eqn:E; [|contradiction X]. apply same_files_b_eq in X. subst w.
    split.
    { eapply int_recover; [|apply int_none]. eapply crash_after; [exact E|apply durable_live]. }
    split.
    + destruct (run (recover sample_env) stuck_files) as [w [u|er]]; [contradiction R|].
      destruct er; try contradiction R. apply same_files_b_eq in R. subst w. reflexivity.
    + destruct (run (rekey sample_env sample_rekey) stuck_files) as [w [u|er]]; [contradiction K|].
      destruct er; try contradiction K. apply same_files_b_eq in K. subst w. reflexivity.
  - exists left_files.
    assert (X : match recover_at 10 with
      | Some (q1, u1) => match after_ops 4 q1 u1 with
        | Some (_, u2) => no_sync 4 FKey q1 u1 && same_files_b (wset u2 FKey (wget u1 FKey)) left_files = true
        | None => False end
      | None => False end) by (vm_compute; reflexivity).
    assert (R : same_result (run (recover sample_env) left_files) (left_files, Ok tt) = true)
      by (vm_compute; reflexivity).
    destruct (recover_at 10) as [[q1 u1]|] eqn:E1; [|contradiction X].
    destruct (after_ops 4 q1 u1) as [[q2 u2]|] eqn:E2; [|contradiction X].
    apply andb_prop in X as [X1 X2]. apply same_files_b_eq in X2.
    destruct (steps_lost log_in_order 10 4 FKey _ mid_files (durable mid_files) _ _ _ _ E1 E2 X1 (durable_live _))
      as (S2 & Hs & Hd). rewrite X2 in Hd.
    split. { eapply int_recover; [|apply int_none]. exists q2, u2, S2. split; [exact Hs|exact Hd]. }
    split; [discriminate|]. apply same_result_eq. exact R.
Qed.

(** C20.  rekey() does not check its arguments: with an item count of zero it builds a key
    file without buckets and reports success, but the database cannot be opened. *)
Theorem C20_rekey_zero_items_refuted : exists e a l r,
  good_args a /\ iter_ok e /\ Forall (valid_xop (ca_key_size a)) l /\
  104 <= ra_block_size r <= 65535 /\ ra_load_factor r = FVal 3 4 /\ ra_buckets r = Some 0 /\
  exists w s d k w' t er, xlife e a l = (w, Some s, spec_outs sempty (map as_reopen l)) /\
    run (store_close e s) w = (World (Some d) (Some k) None, Ok tt) /\
    run (rekey e r) (World (Some d) None None) = (w', Ok t) /\
    snd (run (store_open e) w') = Er er.
Proof.
  destruct sample_closed as (V & w & s & d & k & A & B & F).
  exists sample_env, sample_args, (map XCall (sample_inserts 30)), (RekeyArgs 33 120 (FVal 3 4) (Some 0) 250).
  split; [exact sample_args_good|]. split; [exact sample_env_ok|]. split; [exact V|].
  split; [split; vm_compute; discriminate|]. split; [reflexivity|]. split; [reflexivity|].
  assert (X : match run (rekey sample_env (RekeyArgs 33 120 (FVal 3 4) (Some 0) 250)) data_only with
    | (w', Ok t) => match run (store_open sample_env) w' with (_, Er _) => True | _ => False end
    | _ => False end) by (vm_compute; exact I).
  destruct (run (rekey sample_env (RekeyArgs 33 120 (FVal 3 4) (Some 0) 250)) data_only) as [w' [t|er]] eqn:E;
    [|contradiction X].
  destruct (run (store_open sample_env) w') as [w'' [s'|er]] eqn:E'; [contradiction X|].
  exists w, s, d, k, w', t, er. rewrite F. split; [exact A|]. split; [exact B|]. split; [exact E|].
  rewrite E'. reflexivity.
Qed.

(** C22.  verify() rejects healthy databases whose block size was changed by rekey(): by
    [C20_rekey_transparent] all values are still found, yet both the ordinary and the fast
    verification report invalid_spill_size, because the data file still holds spill
    records of the old size. *)
Theorem C22_verify_rekeyed_refuted : exists e a l,
  good_args a /\ iter_ok e /\ Forall (valid_xop (ca_key_size a)) l /\ small_xhistory l /\
  exists w s w', xlife e a l = (w, Some s, spec_outs sempty (map as_reopen l)) /\
    run (store_close e s) w = (w', Ok tt) /\
    run (verify e 0) w' = (w', Er invalid_spill_size) /\
    run (verify e 10000) w' = (w', Er invalid_spill_size).
Proof.
  pose (l := map XCall (sample_inserts 30) ++ [XRekey sample_rekey]).
  assert (V : Forall (valid_xop (ca_key_size sample_args)) l).
  { apply Forall_app. split; [repeat constructor|]. constructor; [apply sample_rekey_good|constructor]. }
  assert (Hs : small_xhistory l) by reflexivity.
  exists sample_env, sample_args, l.
  split; [exact sample_args_good|]. split; [exact sample_env_ok|]. split; [exact V|]. split; [exact Hs|].
  pose proof (C20_rekey_transparent sample_env sample_args l sample_args_good sample_env_ok V (or_introl Hs)) as T.
  assert (X : match xlife sample_env sample_args l with
    | (w, Some s, _) =>
      match run (store_close sample_env s) w with
      | (w', Ok _) =>
        match run (verify sample_env 0) w', run (verify sample_env 10000) w' with
        | (w1, Er invalid_spill_size), (w2, Er invalid_spill_size) =>
          same_files_b w1 w' && same_files_b w2 w' = true
        | _, _ => False
        end
      | _ => False
      end
    | _ => False end) by (vm_compute; reflexivity).
  destruct (xlife sample_env sample_args l) as [[w [s|]] outs] eqn:E; [|contradiction X].
  cbn [snd] in T. subst outs.
  destruct (run (store_close sample_env s) w) as [w' [[]|er]] eqn:E1; [|contradiction X].
  destruct (run (verify sample_env 0) w') as [w1 [v1|e1]] eqn:E2; [contradiction X|].
  destruct (run (verify sample_env 10000) w') as [w2 [v2|e2]] eqn:E3; [destruct e1; contradiction X|].
  destruct e1; try contradiction X. destruct e2; try contradiction X.
  apply andb_prop in X as [X1 X2]. apply same_files_b_eq in X1, X2. subst w1 w2.
  exists w, s, w'. split; [reflexivity|]. split; [exact E1|]. split; [exact E2|exact E3].
Qed.

Print Assumptions C20_rekey_transparent.
Print Assumptions C20_never_a_wrong_answer.
Print Assumptions C20_rekey_files.
Print Assumptions C42_rekey_progress.
Print Assumptions C21_rekey_stopped.
Print Assumptions C21_recovery_stopped.
Print Assumptions C21_data_kept.
Print Assumptions C21_rekey_durable_refuted.
Print Assumptions C21_recovery_repeatable_refuted.
Print Assumptions C20_rekey_zero_items_refuted.
Print Assumptions C22_verify_rekeyed_refuted.
