(** C30: create(). *)
From Verif Require Import Model.Bytes Model.Err Model.Field Model.Format Model.IO Model.BulkIO
  Model.Bucket Model.Pool Model.Recover Model.Create Model.Store Model.History Model.Crash
  Spec SpecFormat SpecHeader SpecCreate Proofs.BytesFacts Proofs.SafeFacts Proofs.CreateFacts Proofs.Witness Props.Samples.

(** C30.  Good arguments and no files: the three files are exactly as specified,
    open() accepts them and reports the arguments given. *)
Theorem C30_create_good : forall e a,
  good_args a -> iter_ok e ->
  exists n d w s, ca_load_factor a = FVal n d /\
    run (create e a) no_files =
      (World (Some (new_dat a)) (Some (new_key (e_hasher e) a (Z.to_N (65536 * n / Z.pos d)))) (Some []), Ok tt) /\
    lived e a [] w s /\
    w = World (Some (new_dat a)) (Some (new_key (e_hasher e) a (Z.to_N (65536 * n / Z.pos d)))) (Some []) /\
    kh_key_size (st_kh s) = ca_key_size a /\ kh_block_size (st_kh s) = ca_block_size a /\
    kh_appnum (st_kh s) = ca_appnum a /\ kh_uid (st_kh s) = ca_uid a /\ kh_salt (st_kh s) = ca_salt a.
Proof. exact create_new. Qed.

(** C30.  The new database is empty (instance of C03). *)
Theorem C30_new_is_empty : forall e a w s k,
  good_args a -> iter_ok e -> lived e a [] w s -> blen k = ca_key_size a ->
  run (store_fetch e s k) w = (w, Er key_not_found).
Proof. exact new_is_empty. Qed.

Example C30_good_example :
  good_args (CreateArgs 1 2 3 65535 4096 (FVal 1 65536)) /\ good_args (CreateArgs 0 0 0 1 104 (FVal 65535 65536)).
Proof. unfold good_args. cbn. lia. Qed.

(** C30.  Rejected arguments: the documented error, whatever files there are, and
    no file is touched. *)
Theorem C30_bad_arguments : forall e a w er,
  first_failed (arg_checks a) = Some er -> run (create e a) w = (w, Er er).
Proof. exact create_rejects. Qed.

Example C30_bad_example :
  map (fun a => first_failed (arg_checks a))
    [CreateArgs 1 2 3 0 4096 (FVal 1 2); CreateArgs 1 2 3 8 103 (FVal 1 2); CreateArgs 1 2 3 8 65536 (FVal 1 2);
     CreateArgs 1 2 3 8 4096 (FVal 0 1); CreateArgs 1 2 3 8 4096 (FVal 1 1); CreateArgs 1 2 3 8 4096 (FVal 1 2)] =
  [Some invalid_key_size; Some invalid_block_size; Some invalid_block_size; Some invalid_load_factor;
   Some invalid_load_factor; None].
Proof. reflexivity. Qed.

(** C30.  If any of the three files exists none is changed or left behind. *)
Theorem C30_existing_file : forall e a w,
  first_failed (arg_checks a) = None -> w <> no_files -> run (create e a) w = (w, Er EExist).
Proof. exact create_exists. Qed.

Example C30_existing_example :
  run (create sample_env sample_args) (World None None (Some [1; 2])) = (World None None (Some [1; 2]), Er EExist).
Proof. vm_compute. reflexivity. Qed.

(** C30.  If an operation of create() fails (other than an erase; a failed
    creation having made no file), whatever the failing operation did to the
    files, those there afterwards are the ones there before. *)
Theorem C30_failure_undone : forall e a w S o k w1 S1 n w2,
  steps log_in_order (create e a) w S (Do o k) w1 S1 ->
  (forall f, o <> IoErase f) -> match o with IoCreate _ => w2 = w1 | _ => True end ->
  run (k (RErr (EIO n))) w2 = (w, Er (EIO n)).
Proof. exact (failure_undone log_in_order). Qed.

(** Failing to write the second block of the key file. *)
Example C30_failure_example :
  exists d k w1 S1, steps log_in_order (create sample_env sample_args) no_files (durable no_files)
    (Do (IoWrite FKey true 104 d) k) w1 S1 /\ w_dat w1 <> None.
Proof.
  assert (X : match after_ops 5 (create sample_env sample_args) no_files with
     | Some (Do (IoWrite FKey true off d) _, w) => off = 104 /\ w_dat w <> None
     | _ => False end) by (vm_compute; split; [reflexivity|discriminate]).
  destruct (after_ops 5 (create sample_env sample_args) no_files) as [[q w1]|] eqn:E; [|contradiction].
  destruct q as [r|[ | | | | |[] [] off d| | ] k]; try contradiction. destruct X as [-> X].
  destruct (after_steps log_in_order _ _ _ _ _ (durable no_files) E) as (S1 & Hs).
  exists d, k, w1, S1. split; assumption.
Qed.

(** C30, refuted: arguments accepted by create() whose files open() refuses: key
    sizes above 65535 (the header field is 16 bits wide) and load factors below
    1/65536; a NaN load factor is converted to an integer, which is undefined. *)
Theorem C30_accepted_arguments_refuted :
  (exists e a w, run (create e a) no_files = (w, Ok tt) /\ ca_key_size a = 65536 /\
     snd (run (store_open e) w) = Er invalid_key_size) /\
  (exists e a w n d, run (create e a) no_files = (w, Ok tt) /\ ca_load_factor a = FVal n d /\ (0 < n)%Z /\
     snd (run (store_open e) w) = Er invalid_load_factor) /\
  (exists e a, ca_load_factor a = FNaN /\ snd (run (create e a) no_files) = Er EUB).
Proof.
  split; [|split].
  - exists sample_env, (CreateArgs 7 9 11 65536 104 (FVal 1 2)),
      (fst (run (create sample_env (CreateArgs 7 9 11 65536 104 (FVal 1 2))) no_files)).
    split; [|split]; vm_compute; reflexivity.
  - exists sample_env, (CreateArgs 7 9 11 8 104 (FVal 1 100000)),
      (fst (run (create sample_env (CreateArgs 7 9 11 8 104 (FVal 1 100000))) no_files)), 1%Z, 100000%positive.
    split; [|split; [|split]]; vm_compute; reflexivity.
  - exists sample_env, (CreateArgs 7 9 11 8 104 FNaN). split; vm_compute; reflexivity.
Qed.

Print Assumptions C30_create_good.
Print Assumptions C30_new_is_empty.
Print Assumptions C30_bad_arguments.
Print Assumptions C30_existing_file.
Print Assumptions C30_failure_undone.
Print Assumptions C30_accepted_arguments_refuted.
