(** C22: verify() accepts every healthy database. *)
From Verif Require Import Model.Bytes Model.Err Model.Field Model.Format Model.IO Model.BulkIO
  Model.Bucket Model.Pool Model.Recover Model.Create Model.Store Model.History Model.Visit Model.Verify Model.Events
  Spec SpecFormat SpecHeader SpecDisk SpecVisit SpecVerify Proofs.BytesFacts Proofs.RefuseFacts
  Proofs.VisitFacts Proofs.WrittenFacts Proofs.VerifyTheorems Props.Samples.

(** C22.  verify() with any buffer size, on the files of any database reached by a
    history of calls.  The files are a header and records [rs] whose values are those
    that were written, and buckets with spill chains of lengths [lens].  verify()
    changes nothing and reports the statistics of [rs] and [lens] (SpecVerify.v);
    the only other result is invalid_spill_size, for block sizes below 116 together
    with a buffer of two blocks or more and a spill record. *)
Theorem C22_verify_partial : forall e a l w s buf,
  iter_ok e -> good_args a -> Forall (valid_op (ca_key_size a)) l -> lived e a l w s ->
  exists dat key rs lens, w_dat w = Some dat /\ w_key w = Some key /\
    database (ca_key_size a) (ca_block_size a) dat key rs lens /\ values rs = written sempty [] [] l /\
    ((exists v, run (verify e buf) w = (w, Ok v) /\ reports v (true_stats (ca_block_size a) rs lens)) \/
     (run (verify e buf) w = (w, Er invalid_spill_size) /\ ca_block_size a < 116 /\
      2 * ca_block_size a + 8 <= buf /\ 0 < count is_spill rs)).
Proof. exact lived_verify. Qed.

(** C22 in full, but for the total of spill bytes, for block sizes from 116. *)
Theorem C22_verify_116 : forall e a l w s buf,
  iter_ok e -> good_args a -> Forall (valid_op (ca_key_size a)) l -> lived e a l w s ->
  116 <= ca_block_size a ->
  exists dat key rs lens v, w_dat w = Some dat /\ w_key w = Some key /\
    database (ca_key_size a) (ca_block_size a) dat key rs lens /\ values rs = written sempty [] [] l /\
    run (verify e buf) w = (w, Ok v) /\ reports v (true_stats (ca_block_size a) rs lens).
Proof. exact lived_verify_big. Qed.

(** C22.  Each algorithm by itself.  The normal one accepts every database and reports
    all statistics.  The fast one (any buffer of at least two blocks) does so for block
    sizes from 116 or without spill records, the total of spill bytes being right when
    the whole key file fits in the buffer and some spill record is in use; and
    for smaller blocks it refuses every database with a spill record. *)
Theorem C22_both_algorithms : forall e a l w s buf,
  iter_ok e -> good_args a -> Forall (valid_op (ca_key_size a)) l -> lived e a l w s ->
  let bs := ca_block_size a in
  exists dat key rs lens kh, w_dat w = Some dat /\ w_key w = Some key /\
    database (ca_key_size a) bs dat key rs lens /\ values rs = written sempty [] [] l /\
    run read_key_header w = (w, Ok kh) /\
    let st := true_stats bs rs lens in
    (exists v, run (verify_normal e kh (blen dat)) w = (w, Ok v) /\ vi_algorithm v = 0 /\
       reports v st /\ vi_spill_bytes_tot v = s_spill_bytes st) /\
    (2 * bs + 8 <= buf -> 116 <= bs \/ s_spills st = 0 ->
     exists v, run (verify_fast e kh (blen dat) buf) w = (w, Ok v) /\ vi_algorithm v = 1 /\ reports v st /\
       (blen lens * (bs + 8) + bs <= buf -> 0 < s_spills_used st -> vi_spill_bytes_tot v = s_spill_bytes st)) /\
    (2 * bs + 8 <= buf -> bs < 116 -> 0 < s_spills st ->
     run (verify_fast e kh (blen dat) buf) w = (w, Er invalid_spill_size)).
Proof. exact lived_verify_both. Qed.

(** ** Concrete databases *)
Definition args120 : create_args := CreateArgs 7 9 11 2 120 (FVal 19 20).
Definition files104 : world := fst (fst (life sample_env sample_args sample_life)).
Definition files120 : world := fst (fst (life sample_env args120 sample_life)).

Lemma args120_good : good_args args120.
Proof. unfold good_args, args120. simpl. lia. Qed.

Lemma lived_files a : (match snd (fst (life sample_env a sample_life)) with Some _ => true | None => false end) = true ->
  exists s, lived sample_env a sample_life (fst (fst (life sample_env a sample_life))) s.
Proof.
  unfold lived. destruct (life sample_env a sample_life) as [[w o] os]. cbn [fst snd].
  destruct o as [s|]; intros X; [|discriminate X]. exists s, os. reflexivity.
Qed.

Definition short_files (w : world) : bool :=
  forallb (fun f => match wget w f with Some c => blen c <? 2 ^ 64 | None => true end) [FDat; FKey; FLog].
Lemma short_files_fit w : short_files w = true -> files_fit w.
Proof.
  unfold short_files. cbn [forallb]. intros H. apply andb_prop in H as [H1 H]. apply andb_prop in H as [H2 H].
  apply andb_prop in H as [H3 _]. intros f c Hc.
  destruct f; rewrite Hc in *; apply N.ltb_lt; assumption.
Qed.

Lemma same_world w w' : same_result (w, Ok tt) (w', Ok tt) = true -> w = w'.
Proof. intros X. apply same_result_eq in X. exact (f_equal fst X). Qed.

(** The hypotheses hold of the sample databases, which have 31 values. *)
Example C22_sample104 : exists s, lived sample_env sample_args sample_life files104 s.
Proof.
  destruct (lived_files sample_args) as [s H]; [vm_compute; reflexivity|]. exists s. exact H.
Qed.
Example C22_sample120 : exists s, lived sample_env args120 sample_life files120 s.
Proof.
  destruct (lived_files args120) as [s H]; [vm_compute; reflexivity|]. exists s. exact H.
Qed.
Example C22_sample_reports :
  match run (verify sample_env 0) files120, run (verify sample_env 10000) files120 with
  | (_, Ok v), (_, Ok v') =>
    (vi_algorithm v, vi_algorithm v') = (0, 1) /\
    (vi_key_count v, vi_value_count v, vi_value_bytes v) = (31, 31, 122) /\
    (vi_key_count v', vi_value_count v', vi_value_bytes v') = (31, 31, 122) /\
    (vi_spill_count v, vi_spill_count_tot v, vi_spill_bytes v, vi_spill_bytes_tot v) = (1, 2, 124, 248) /\
    vi_hist v = [5; 1; 0; 0; 0; 0; 0; 0; 0; 0]
  | _, _ => False
  end.
Proof. vm_compute. auto 10. Qed.

(** C22 is false of the code: the fast algorithm refuses healthy databases with block
    sizes below 116 (it requires the size of a spill record to be that of a bucket of
    bucket_capacity(size) entries, which is 0 for sizes below 104). *)
Theorem C22_verify_refuted : exists e a l w s buf,
  iter_ok e /\ good_args a /\ Forall (valid_op (ca_key_size a)) l /\ lived e a l w s /\
  run (verify e buf) w = (w, Er invalid_spill_size).
Proof.
  destruct C22_sample104 as (s & H). exists sample_env, sample_args, sample_life, files104, s, 10000.
  split; [exact sample_env_ok|]. split; [exact sample_args_good|]. split; [exact sample_life_valid|].
  split; [exact H|].
  assert (X : (match run (verify sample_env 10000) files104 with
               | (w, Er invalid_spill_size) => same_result (w, Ok tt) (files104, Ok tt) | _ => false end) = true)
    by (vm_compute; reflexivity).
  destruct (run (verify sample_env 10000) files104) as [w [v|er]]; [discriminate X|].
  destruct er; try discriminate X. apply same_world in X. rewrite X. reflexivity.
Qed.

(** ... and the total of spill bytes that it reports is computed from whichever bucket
    was read last, or from uninitialised memory: here the same database gives 248 with
    one buffer size and another number with another. *)
Theorem C22_spill_bytes_refuted : exists e a l w s,
  iter_ok e /\ good_args a /\ Forall (valid_op (ca_key_size a)) l /\ lived e a l w s /\
  exists v v', run (verify e 0) w = (w, Ok v) /\ run (verify e 248) w = (w, Ok v') /\
    vi_spill_count_tot v = vi_spill_count_tot v' /\ vi_spill_bytes_tot v = 248 /\ vi_spill_bytes_tot v' <> 248.
Proof.
  destruct C22_sample120 as (s & H). exists sample_env, args120, sample_life, files120, s.
  split; [exact sample_env_ok|]. split; [exact args120_good|].
  split; [change (ca_key_size args120) with (ca_key_size sample_args); exact sample_life_valid|].
  split; [exact H|].
  assert (X : (match run (verify sample_env 0) files120, run (verify sample_env 248) files120 with
               | (w, Ok v), (w', Ok v') => same_result (w, Ok tt) (files120, Ok tt) &&
                   same_result (w', Ok tt) (files120, Ok tt) && (vi_spill_count_tot v =? vi_spill_count_tot v') &&
                   (vi_spill_bytes_tot v =? 248) && negb (vi_spill_bytes_tot v' =? 248)
               | _, _ => false end) = true) by (vm_compute; reflexivity).
  destruct (run (verify sample_env 0) files120) as [w1 [v|er]]; [|discriminate X].
  destruct (run (verify sample_env 248) files120) as [w2 [v'|er]]; [|discriminate X].
  apply andb_prop in X as [X X5]. apply andb_prop in X as [X X4]. apply andb_prop in X as [X X3].
  apply andb_prop in X as [X1 X2]. apply same_world in X1, X2. rewrite X1, X2.
  exists v, v'. split; [reflexivity|]. split; [reflexivity|]. split; [apply N.eqb_eq; exact X3|].
  split; [apply N.eqb_eq; exact X4|]. apply N.eqb_neq. apply negb_true_iff. exact X5.
Qed.

Print Assumptions C22_verify_partial.
Print Assumptions C22_verify_116.
Print Assumptions C22_both_algorithms.
Print Assumptions C22_verify_refuted.
Print Assumptions C22_spill_bytes_refuted.
