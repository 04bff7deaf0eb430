(** C68: calls made with an error code that still holds an error. *)
From Verif Require Import Model.Bytes Model.Err Model.Field Model.Format Model.IO Model.BulkIO
  Model.Bucket Model.Pool Model.Recover Model.Create Model.Store Model.History Model.Visit Model.Verify
  Model.Rekey Model.ErrArg Spec SpecHeader SpecCreate SpecCrash SpecAttrs
  Proofs.BytesFacts Proofs.DiskFacts Proofs.IOFacts Proofs.ErrArgFacts Props.Samples.

(** C68, what holds.  fetch() called while ec holds the error [er], after any calls: the error
    stays, and the callback is given a value only if the key was stored since the last flush
    or open; it is then the right one. *)
Theorem C68_fetch : forall e a l w s k er,
  good_args a -> iter_ok e -> Forall (valid_op (ca_key_size a)) l -> lived e a l w s -> blen k = ca_key_size a ->
  run (fetch_ec e s k (Some er)) w =
    (w, (Some er, unsaved (spec_final sempty l) (spec_durable sempty sempty l) k)).
Proof. exact held_fetch. Qed.

(** C68.  insert() then stores nothing and reports an error. *)
Theorem C68_insert : forall e a l w s k v er,
  good_args a -> iter_ok e -> Forall (valid_op (ca_key_size a)) l -> lived e a l w s -> blen k = ca_key_size a ->
  0 < blen v < 2 ^ 32 ->
  run (insert_ec e s k v (Some er)) w =
    (w, (Some (match unsaved (spec_final sempty l) (spec_durable sempty sempty l) k with
               | Some _ => key_exists | None => er end), None)).
Proof. exact held_insert. Qed.

(** C68.  open(), recover(), rekey(), verify() and visit() then do nothing and report an error,
    whatever the files hold: no call can be taken to have succeeded. *)
Theorem C68_files : forall e er w,
  exists er', (w_dat w <> None -> er' = er) /\
    run (open_ec e (Some er)) w = (w, (Some er', None)) /\
    run (recover_ec e (Some er)) w = (w, (Some er', None)) /\
    (forall a, run (rekey_ec e a (Some er)) w = (w, (Some er', None))) /\
    (forall n, run (verify_ec e n (Some er)) w = (w, (Some er', None))) /\
    (forall cb, run (visit_ec cb (Some er)) w = (w, (Some er', []))).
Proof.
  intros e er w. exists (data_answer w er). split.
  { unfold data_answer. destruct (w_dat w); [reflexivity|intros H; destruct (H eq_refl)]. }
  split; [apply held_store_open|]. split; [apply held_recover|].
  split; [intros a; apply held_rekey|]. split; [intros n; apply held_verify|intros cb; apply held_visit].
Qed.

(** C68.  close() does the same to the files as with a clear ec, but the error stays although
    it succeeds. *)
Theorem C68_close : forall e s er w,
  fst (run (close_ec e s (Some er)) w) = fst (run (store_close e s) w) /\
  snd (run (close_ec e s (Some er)) w) = Some (match snd (run (store_close e s) w) with Ok _ => er | Er er' => er' end).
Proof. exact held_close. Qed.

(** C68, refuted: any key that has been saved is not delivered when ec still holds
    key_not_found from an earlier fetch, and this same error is reported: the caller cannot
    but take the key to be missing.  With a clear ec it is found. *)
Theorem C68_fetch_refuted : forall e a l w s k v,
  good_args a -> iter_ok e -> Forall (valid_op (ca_key_size a)) l -> lived e a l w s -> blen k = ca_key_size a ->
  spec_final sempty l k = Some v -> spec_durable sempty sempty l k = Some v ->
  run (fetch_ec e s k (Some key_not_found)) w = (w, (Some key_not_found, None)) /\
  run (fetch_ec e s k None) w = (w, (None, Some v)).
Proof.
  intros e a l w s k v Ha Hit Hv Hl Hk Hf Hd. split.
  - rewrite (held_fetch e a l w s k key_not_found Ha Hit Hv Hl Hk). unfold unsaved. rewrite Hd. reflexivity.
  - unfold fetch_ec, with_ec. rewrite run_bind.
    destruct (lived_chains e a l w s Hit Ha Hv Hl) as [_ F]. rewrite (F k Hk), Hf. reflexivity.
Qed.

(** C68, refuted: create() with valid arguments, while ec holds an error, leaves an empty data
    file behind, on account of which the next create() fails. *)
Theorem C68_create_refuted : forall e a er w,
  first_failed (arg_checks a) = None -> w_dat w = None ->
  run (create_ec e a (Some er)) w = (wset w FDat (Some []), (Some er, None)) /\
  run (create e a) (wset w FDat (Some [])) = (wset w FDat (Some []), Er EExist).
Proof. exact held_create. Qed.

(** ** Concrete cases *)
Example C68_sample : exists w s,
  lived sample_env sample_args sample_life w s /\
  run (fetch_ec sample_env s [9; 9] None) w = (w, (Some key_not_found, None)) /\
  run (fetch_ec sample_env s (sample_key 3) (Some key_not_found)) w = (w, (Some key_not_found, None)) /\
  run (fetch_ec sample_env s (sample_key 3) None) w = (w, (None, Some (sample_val 3))) /\
  run (fetch_ec sample_env s (sample_key 78) (Some key_not_found)) w = (w, (Some key_not_found, Some [8])) /\
  run (insert_ec sample_env s [9; 9] [1; 2] (Some key_not_found)) w = (w, (Some key_not_found, None)).
Proof.
  destruct sample_lived as (w & s & H & _). exists w, s. split; [exact H|].
  assert (A : spec_final sempty sample_life (sample_key 3) = Some (sample_val 3)) by (vm_compute; reflexivity).
  assert (B : spec_durable sempty sempty sample_life (sample_key 3) = Some (sample_val 3)) by (vm_compute; reflexivity).
  assert (C : spec_final sempty sample_life [9; 9] = None) by (vm_compute; reflexivity).
  assert (D : unsaved (spec_final sempty sample_life) (spec_durable sempty sempty sample_life) (sample_key 78) = Some [8])
    by (vm_compute; reflexivity).
  assert (E : unsaved (spec_final sempty sample_life) (spec_durable sempty sempty sample_life) [9; 9] = None)
    by (vm_compute; reflexivity).
  destruct (C68_fetch_refuted sample_env sample_args sample_life w s (sample_key 3) _ sample_args_good sample_env_ok
    sample_life_valid H eq_refl A B) as [X Y].
  split.
  { unfold fetch_ec, with_ec. rewrite run_bind.
    destruct (lived_chains sample_env sample_args sample_life w s sample_env_ok sample_args_good sample_life_valid H) as [_ F].
    rewrite (F [9; 9] eq_refl), C. reflexivity. }
  split; [exact X|]. split; [exact Y|]. split.
  - rewrite (C68_fetch sample_env sample_args sample_life w s _ key_not_found sample_args_good sample_env_ok sample_life_valid H)
      by reflexivity. rewrite D. reflexivity.
  - rewrite (C68_insert sample_env sample_args sample_life w s _ _ key_not_found sample_args_good sample_env_ok sample_life_valid H)
      by (vm_compute; auto). rewrite E. reflexivity.
Qed.

Example C68_create_sample :
  first_failed (arg_checks sample_args) = None /\
  run (create_ec sample_env sample_args (Some key_not_found)) no_files =
    (World (Some []) None None, (Some key_not_found, None)).
Proof. split; vm_compute; reflexivity. Qed.

Print Assumptions C68_fetch.
Print Assumptions C68_insert.
Print Assumptions C68_files.
Print Assumptions C68_close.
Print Assumptions C68_fetch_refuted.
Print Assumptions C68_create_refuted.
