(** C67: replacing a key file that open() refuses. *)
From Verif Require Import Model.Bytes Model.Err Model.Field Model.Format Model.IO Model.BulkIO
  Model.Bucket Model.Pool Model.Recover Model.Create Model.Store Model.History Model.Crash Model.Rekey
  Model.RekeyLife Spec SpecHeader SpecRekey
  Proofs.RefuseFacts Proofs.RekeyTheorems Proofs.RepairFacts Proofs.Witness
  Props.Samples Props.RekeyProps.

(** C67.  The files of a closed database, its key file [k] replaced by one whose header
    open() refuses: open() changes neither file, but leaves an empty log behind.  Once the
    user has deleted the key file and this log, rekey() with any parameters and open()
    succeed, and every key has the value the program gave it. *)
Theorem C67_repair : forall e a l r w s os d k k' er,
  good_args a -> iter_ok e -> Forall (valid_xop (ca_key_size a)) l -> good_rekey r ->
  small_xhistory (l ++ [XRekey r]) ->
  xlife e a l = (w, Some s, os) -> run (store_close e s) w = (World (Some d) (Some k) None, Ok tt) ->
  bytes_ok d -> bytes_ok k' -> 104 < blen k' ->
  first_failed (key_checks (e_hasher e) k' ++ dat_key_checks d k') = Some er ->
  run (store_open e) (World (Some d) (Some k') None) = (World (Some d) (Some k') (Some []), Er er) /\
  exists w1 t w2 s2,
    run (rekey e r) (World (Some d) None None) = (w1, Ok t) /\ run (store_open e) w1 = (w2, Ok s2) /\
    forall key, blen key = ca_key_size a ->
      snd (run (store_fetch e s2 key) w2) =
      match spec_final sempty (map as_reopen l) key with Some v => Ok v | None => Er key_not_found end.
Proof.
  intros e a l r w s os d k k' er H1 H2 H3 H4 H5 H6 H7 D K L F.
  destruct (rebuilt e a l r w s os d k H1 H2 H3 H4 H5 H6 H7) as (Dl & w1 & t & w2 & s2 & R & O & _ & Q).
  split.
  - apply log_left; auto. eapply closed_header; eauto.
  - exists w1, t, w2, s2. auto.
Qed.

(** C67 when the key file holds no more than a header, whatever it contains: open() itself
    erases it, and rekey() can be called at once. *)
Theorem C67_short : forall e a l r w s os d k k' log,
  good_args a -> iter_ok e -> Forall (valid_xop (ca_key_size a)) l -> good_rekey r ->
  small_xhistory (l ++ [XRekey r]) ->
  xlife e a l = (w, Some s, os) -> run (store_close e s) w = (World (Some d) (Some k) None, Ok tt) ->
  bytes_ok d -> blen k' <= 104 ->
  exists w0 w1 t w2 s2,
    run (store_open e) (World (Some d) (Some k') log) = (w0, Er no_key_file) /\
    run (rekey e r) w0 = (w1, Ok t) /\ run (store_open e) w1 = (w2, Ok s2) /\
    forall key, blen key = ca_key_size a ->
      snd (run (store_fetch e s2 key) w2) =
      match spec_final sempty (map as_reopen l) key with Some v => Ok v | None => Er key_not_found end.
Proof.
  intros e a l r w s os d k k' log H1 H2 H3 H4 H5 H6 H7 D L.
  destruct (rebuilt e a l r w s os d k H1 H2 H3 H4 H5 H6 H7) as (Dl & w1 & t & w2 & s2 & R & O & _ & Q).
  exists (World (Some d) None None), w1, t, w2, s2. split; [|auto].
  apply (short_key_erased e (World (Some d) (Some k') log) d k' eq_refl eq_refl D Dl L).
  eapply closed_header; eauto.
Qed.

(** C67, refuted without the proviso that the log be deleted too: after open() has refused
    the key file and the user has deleted it, rekey() reports that a log exists whatever its
    arguments, and neither recover() nor open() removes that log: both report that there is
    no such file.  This is so for every data file with a valid header and every key file
    whose header is refused. *)
Theorem C67_log_in_the_way_refuted : forall e d k er,
  bytes_ok d -> bytes_ok k -> 92 <= blen d -> 104 < blen k ->
  first_failed (dat_checks d) = None -> first_failed (key_checks (e_hasher e) k ++ dat_key_checks d k) = Some er ->
  exists w,
    run (store_open e) (World (Some d) (Some k) None) = (w, Er er) /\
    let w' := wset w FKey None in
    (forall r, run (rekey e r) w' = (w', Er log_file_exists)) /\
    run (recover e) w' = (w', Er ENoEnt) /\ run (store_open e) w' = (w', Er ENoEnt).
Proof.
  intros e d k er D K Dl Kl Fd Fk. exists (World (Some d) (Some k) (Some [])).
  split; [apply log_left; auto|]. destruct (stuck e d [] D Dl Fd) as (A & B & C).
  cbv zeta. split; [exact C|]. split; [exact A|exact B].
Qed.

(** ** Concrete cases *)

(** The key file of the sample with another uid (bytes 10 to 17). *)
Definition closed_key : bytes := Eval vm_compute in match w_key closed_files with Some k => k | None => [] end.
Definition other_key : bytes := bwrite 17 [200] closed_key.

Lemma other_key_refused :
  bytes_ok other_key /\ 104 < blen other_key /\
  first_failed (key_checks (e_hasher sample_env) closed_key ++ dat_key_checks closed_data closed_key) = None /\
  first_failed (key_checks (e_hasher sample_env) other_key ++ dat_key_checks closed_data other_key) = Some uid_mismatch.
Proof.
  split.
  { apply Forall_forall. intros x Hx.
    assert (H : forallb (fun x => x <? 256) other_key = true) by (vm_compute; reflexivity).
    rewrite forallb_forall in H. apply N.ltb_lt. exact (H x Hx). }
  split; [vm_compute; reflexivity|]. split; vm_compute; reflexivity.
Qed.

Example C67_sample : exists w s os k,
  xlife sample_env sample_args (map XCall (sample_inserts 30)) = (w, Some s, os) /\
  run (store_close sample_env s) w = (World (Some closed_data) (Some k) None, Ok tt) /\
  run (store_open sample_env) (World (Some closed_data) (Some other_key) None) =
    (World (Some closed_data) (Some other_key) (Some []), Er uid_mismatch) /\
  exists w1 t w2 s2,
    run (rekey sample_env sample_rekey) (World (Some closed_data) None None) = (w1, Ok t) /\
    run (store_open sample_env) w1 = (w2, Ok s2) /\
    snd (run (store_fetch sample_env s2 (sample_key 7)) w2) = Ok (sample_val 7).
Proof.
  destruct sample_closed as (V & w & s & d & k & A & B & F).
  assert (X : d = closed_data).
  { pose proof (f_equal w_dat F) as Y. rewrite (proj1 data_only_ok) in Y. cbn [w_dat] in Y. congruence. }
  subst d. exists w, s, (spec_outs sempty (map as_reopen (map XCall (sample_inserts 30)))), k.
  split; [exact A|]. split; [exact B|].
  destruct (C67_repair sample_env sample_args (map XCall (sample_inserts 30)) sample_rekey w s _ closed_data k other_key uid_mismatch
    sample_args_good sample_env_ok V (proj1 sample_rekey_good) (proj1 (proj2 (proj2 C20_sample))) A B
    (proj1 (proj2 (proj2 (proj2 data_only_ok)))) (proj1 other_key_refused) (proj1 (proj2 other_key_refused))
    (proj2 (proj2 (proj2 other_key_refused)))) as (O & w1 & t & w2 & s2 & R1 & R2 & R3).
  split; [exact O|]. exists w1, t, w2, s2. split; [exact R1|]. split; [exact R2|].
  rewrite R3 by reflexivity.
  assert (Y : spec_final sempty (map as_reopen (map XCall (sample_inserts 30))) (sample_key 7) = Some (sample_val 7))
    by (vm_compute; reflexivity).
  rewrite Y. reflexivity.
Qed.

Example C67_short_sample : exists w0 w1 t w2 s2,
  run (store_open sample_env) (World (Some closed_data) (Some [104; 101; 108; 108; 111]) None) = (w0, Er no_key_file) /\
  run (rekey sample_env sample_rekey) w0 = (w1, Ok t) /\ run (store_open sample_env) w1 = (w2, Ok s2) /\
  snd (run (store_fetch sample_env s2 (sample_key 7)) w2) = Ok (sample_val 7).
Proof.
  destruct C67_sample as (w & s & os & k & A & B & _). destruct sample_closed as (V & _).
  destruct (C67_short sample_env sample_args (map XCall (sample_inserts 30)) sample_rekey w s os closed_data k
    [104; 101; 108; 108; 111] None sample_args_good sample_env_ok V (proj1 sample_rekey_good)
    (proj1 (proj2 (proj2 C20_sample))) A B (proj1 (proj2 (proj2 (proj2 data_only_ok)))))
    as (w0 & w1 & t & w2 & s2 & R0 & R1 & R2 & R3); [vm_compute; discriminate|].
  exists w0, w1, t, w2, s2. split; [exact R0|]. split; [exact R1|]. split; [exact R2|].
  rewrite R3 by reflexivity.
  assert (Y : spec_final sempty (map as_reopen (map XCall (sample_inserts 30))) (sample_key 7) = Some (sample_val 7))
    by (vm_compute; reflexivity).
  rewrite Y. reflexivity.
Qed.

Example C67_stuck_sample : exists w,
  run (store_open sample_env) (World (Some closed_data) (Some other_key) None) = (w, Er uid_mismatch) /\
  run (rekey sample_env sample_rekey) (wset w FKey None) = (wset w FKey None, Er log_file_exists).
Proof.
  destruct data_only_ok as (_ & _ & _ & D & Dl & _ & Fd). destruct other_key_refused as (K & Kl & _ & Fk).
  destruct (C67_log_in_the_way_refuted sample_env closed_data other_key uid_mismatch D K Dl Kl Fd Fk) as (w & O & R & _).
  exists w. split; [exact O|]. apply R.
Qed.

Print Assumptions C67_repair.
Print Assumptions C67_short.
Print Assumptions C67_log_in_the_way_refuted.
