(** C51: a machine stop during create(). *)
From Verif Require Import Model.Bytes Model.Err Model.Field Model.Format Model.IO Model.BulkIO
  Model.Bucket Model.Pool Model.Recover Model.Create Model.Store Model.History Model.Crash Model.CreateCrash
  Spec SpecFormat SpecCreate Proofs.BytesFacts Proofs.SafeFacts Proofs.CommitFacts Proofs.Witness Proofs.RekeyTheorems
  Proofs.CreateFacts Proofs.CreateCrashFacts Props.Samples.

(** C51.  The machine stops at any point of create(), any of whose operations may
    have failed, and then any number of times during attempts to recover or open
    the files, whose operations may fail too.  The changes of each file reach the
    disk in order.  Then open() reports one of four errors, or opens the empty
    database create() would have made.  Missing: the same when writes of one file
    may reach the disk in any order, which is false (last theorem of this file). *)
Theorem C51_stopped_create_partial : forall e a w1 w2, good_args a -> iter_ok e ->
  fcrash all_in_order (create e a) no_files (durable no_files) w1 -> retried all_in_order e w1 w2 ->
  exists w' r, run (store_open e) w2 = (w', r) /\
  match r with
  | Er er => In er [ENoEnt; short_read; no_key_file; invalid_bucket_count]
  | Ok s => lived e a [] w' s /\
      forall k, blen k = ca_key_size a -> run (store_fetch e s k) w' = (w', Er key_not_found)
  end.
Proof. exact stopped_create. Qed.

(** Stopped with 50 bytes of the key file header, and with 150 of the 208 bytes of
    the key file, on the disk. *)
Example C51_stopped_example :
  (exists w, fcrash all_in_order (create sample_env sample_args) no_files (durable no_files) w /\
     match w_key w with Some k => blen k = 50 | None => False end /\
     snd (run (store_open sample_env) w) = Er no_key_file) /\
  (exists w, fcrash all_in_order (create sample_env sample_args) no_files (durable no_files) w /\
     match w_key w with Some k => blen k = 150 | None => False end /\
     snd (run (store_open sample_env) w) = Er invalid_bucket_count).
Proof.
  split.
  - assert (X : match after_ops 4 (create sample_env sample_args) no_files with
       | Some (Do (IoWrite FKey ap off d) _, w) => off = 0 /\ w_key w = Some [] /\
           let w2 := wset w FKey (Some (bwrite off (btake 50 d) [])) in
           match w_key w2 with Some k => blen k = 50 | None => False end /\
           snd (run (store_open sample_env) w2) = Er no_key_file
       | _ => False end) by (vm_compute; repeat split).
    destruct (after_ops 4 (create sample_env sample_args) no_files) as [[q w1]|] eqn:E; [|contradiction].
    destruct q as [r|[ | | | | |[] ap off d| | ] k]; try contradiction. destruct X as (Hoff & Hk & X).
    exists (wset w1 FKey (Some (bwrite off (btake 50 d) []))). split; [|exact X].
    eapply cut_crash; [exact E|intros f; reflexivity|exact Hk|exact Hoff].
  - assert (X : match after_ops 5 (create sample_env sample_args) no_files with
       | Some (Do (IoWrite FKey ap off d) _, w) =>
         match w_key w with
         | Some x => off = blen x /\
           let w2 := wset w FKey (Some (bwrite off (btake 46 d) x)) in
           match w_key w2 with Some k => blen k = 150 | None => False end /\
           snd (run (store_open sample_env) w2) = Er invalid_bucket_count
         | None => False end
       | _ => False end) by (vm_compute; repeat split).
    destruct (after_ops 5 (create sample_env sample_args) no_files) as [[q w1]|] eqn:E; [|contradiction].
    destruct q as [r|[ | | | | |[] ap off d| | ] k]; try contradiction.
    destruct (w_key w1) as [x|] eqn:Hk; [|contradiction]. destruct X as (Hoff & X).
    exists (wset w1 FKey (Some (bwrite off (btake 46 d) x))). split; [|exact X].
    eapply cut_crash; [exact E|intros f; reflexivity|exact Hk|exact Hoff].
Qed.

(** C51.  When create() has returned, a machine stop loses nothing of it.  Here no
    order is needed for the data and key files: all three files are synced. *)
Theorem C51_created_is_durable : forall e a w, good_args a ->
  on_disk (srun log_in_order (create e a) no_files (durable no_files)) w ->
  w = fst (run (create e a) no_files).
Proof. exact created_survives. Qed.

Example C51_durable_example :
  on_disk (srun log_in_order (create sample_env sample_args) no_files (durable no_files))
    (fst (run (create sample_env sample_args) no_files)).
Proof. intros []; vm_compute; reflexivity. Qed.

(** C51, refuted without that assumption: the writes of the key file are not
    separated by a sync, so the first bucket may be garbage although the header is
    complete; open() accepts the files and fetch() finds a key in a database into
    which nothing was ever inserted. *)
Definition garbage_bucket : bytes :=
  [0; 1] ++ [0; 0; 0; 0; 0; 0] ++ [0; 0; 0; 0; 0; 0] ++ [0; 0; 0; 0; 0; 2] ++ [0; 0; 0; 0; 0; 3] ++ zeros 78.

Theorem C51_torn_create_refuted :
  exists e a w w' s k v, good_args a /\ iter_ok e /\
    crash no_order (create e a) no_files (durable no_files) w /\
    run (store_open e) w = (w', Ok s) /\ blen k = ca_key_size a /\
    snd (run (store_fetch e s k) w') = Ok v.
Proof.
  assert (X : match after_ops 5 (create sample_env sample_args) no_files with
     | Some (Do (IoWrite FKey ap off d) _, w) =>
       match w_key w with
       | Some x => off = blen x /\ blen d = blen garbage_bucket /\
         let w2 := wset w FKey (Some (x ++ garbage_bucket)) in
         match run (store_open sample_env) w2 with
         | (w3, Ok s) => snd (run (store_fetch sample_env s [97; 116]) w3) = Ok [0; 2]
         | _ => False end
       | None => False end
     | _ => False end) by (vm_compute; repeat split).
  destruct (after_ops 5 (create sample_env sample_args) no_files) as [[q w1]|] eqn:E; [|contradiction].
  destruct q as [r|[ | | | | |[] ap off d| | ] k]; try contradiction.
  destruct (w_key w1) as [x|] eqn:Hk; [|contradiction]. destruct X as (Hoff & Hd & X). cbv zeta in X.
  destruct (run (store_open sample_env) (wset w1 FKey (Some (x ++ garbage_bucket)))) as [w3 [s|er]] eqn:Ho; [|contradiction].
  exists sample_env, sample_args, (wset w1 FKey (Some (x ++ garbage_bucket))), w3, s, [97; 116], [0; 2].
  split; [exact sample_args_good|]. split; [exact sample_env_ok|].
  split; [|split; [exact Ho|split; [reflexivity|exact X]]].
  eapply torn_crash; [exact E|intros f; reflexivity|exact Hk|exact Hoff|].
  rewrite Hd, Hoff. split.
  - rewrite blen_app. lia.
  - intros i Hi _. apply nthN_app_l. exact Hi.
Qed.

Print Assumptions C51_stopped_create_partial.
Print Assumptions C51_created_is_durable.
Print Assumptions C51_torn_create_refuted.
