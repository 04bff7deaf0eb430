(** C17, C36: files that do not belong together are refused. *)
From Verif Require Import Model.Bytes Model.Err Model.Field Model.Format Model.IO Model.BulkIO
  Model.Bucket Model.Pool Model.Recover Model.Create Model.Store Model.History Model.Crash Model.Events
  Spec SpecFormat SpecHeader Proofs.BytesFacts Proofs.RefuseFacts Props.Samples Props.CrashSamples.

(** C17.  open() of any data and key file with complete headers and no log to
    replay: it reports the error of the first condition of SpecHeader.v that
    fails, or succeeds if none does; data and key file are never changed. *)
Theorem C17_open_checks_headers : forall e w d k,
  w_dat w = Some d -> w_key w = Some k -> bytes_ok d -> bytes_ok k ->
  92 <= blen d -> 104 < blen k ->
  match w_log w with None => True | Some l => blen l < 62 end ->
  exists w', same_files w' w /\
  match first_failed (dat_checks d ++ key_checks (e_hasher e) k ++ dat_key_checks d k) with
  | Some er => run (store_open e) w = (w', Er er)
  | None => exists s, run (store_open e) w = (w', Ok s)
  end.
Proof. exact (fun e w d k H1 H2 H3 H4 H5 => open_checked e w d k H1 H2 H3 H4 H5). Qed.

Definition octets (l : bytes) : bool := forallb (fun b => b <? 256) l.
Lemma octets_ok l : octets l = true -> bytes_ok l.
Proof.
  unfold octets. rewrite forallb_forall. intros H. apply Forall_forall. intros x Hx. apply N.ltb_lt. auto.
Qed.

(** Changing one byte of the key file header at a time: uid, application number,
    key size, salt, pepper, block size, type, version. *)
Definition altered (i : N) : world :=
  match w_key pending_files with
  | Some k => wset pending_files FKey (Some (bwrite i [200] k))
  | None => pending_files
  end.
Definition refusal (w : world) : option err :=
  match w_dat w, w_key w with
  | Some d, Some k =>
    if octets d && octets k && (92 <=? blen d) && (104 <? blen k) then
      first_failed (dat_checks d ++ key_checks (e_hasher sample_env) k ++ dat_key_checks d k)
    else None
  | _, _ => None
  end.
Example C17_example :
  map refusal (map altered [17; 25; 27; 35; 43; 45; 7; 9]) =
  [Some uid_mismatch; Some appnum_mismatch; Some key_size_mismatch; Some hash_mismatch;
   Some hash_mismatch; None; Some not_key_file; Some different_version] /\
  refusal (altered 44) = Some invalid_bucket_count /\
  map (fun w => snd (run (store_open sample_env) w)) (map altered [17; 7]) = [Er uid_mismatch; Er not_key_file].
Proof. vm_compute. splits; reflexivity. Qed.

(** C17, C36.  recover() with a complete log header that is wrong in itself. *)
Theorem C36_bad_log_refused : forall e w d k l er,
  w_dat w = Some d -> w_key w = Some k -> w_log w = Some l ->
  bytes_ok d -> bytes_ok l -> 92 <= blen d -> 104 < blen k -> 62 <= blen l ->
  first_failed (dat_checks d ++ log_checks (e_hasher e) l) = Some er ->
  run (recover e) w = (w, Er er) /\ run (store_open e) w = (w, Er er).
Proof. exact bad_log_refused. Qed.

(** C17, C36.  recover() with a complete log header that does not match data or
    key file, provided the log records a key file size (a log written by rekey()
    has 0 there): the documented error, no file changed; open() likewise. *)
Theorem C36_mismatched_log_refused : forall e w d k l er,
  w_dat w = Some d -> w_key w = Some k -> w_log w = Some l ->
  bytes_ok d -> bytes_ok k -> bytes_ok l -> 92 <= blen d -> 104 < blen k -> 62 <= blen l ->
  num_at 46 8 l <> 0 ->
  first_failed (dat_checks d ++ log_checks (e_hasher e) l ++ key_checks (e_hasher e) k ++
                dat_key_checks d k ++ key_log_checks k l) = Some er ->
  run (recover e) w = (w, Er er) /\ run (store_open e) w = (w, Er er).
Proof. exact mismatched_log_refused. Qed.

(** A log of another database: same parameters, other uid. *)
Definition foreign_log (uid key_file_size : N) : bytes :=
  log_type ++ be 2 2 ++ be 8 uid ++ be 8 7 ++ be 2 2 ++ be 8 11 ++
  be 8 (fingerprint (e_hasher sample_env) 11) ++ be 2 104 ++ be 8 key_file_size ++ be 8 92.
Definition with_log (l : bytes) : world := wset pending_files FLog (Some l).
Definition log_refusal (w : world) : option err :=
  match w_dat w, w_key w, w_log w with
  | Some d, Some k, Some l =>
    if octets d && octets k && octets l && (92 <=? blen d) && (104 <? blen k) && (62 <=? blen l) then
      first_failed (dat_checks d ++ log_checks (e_hasher sample_env) l ++
        key_checks (e_hasher sample_env) k ++ dat_key_checks d k ++ key_log_checks k l)
    else None
  | _, _, _ => None
  end.
Example C36_example :
  log_refusal (with_log (foreign_log 10 1456)) = Some uid_mismatch /\
  num_at 46 8 (foreign_log 10 1456) = 1456 /\
  log_refusal (with_log (bwrite 44 [1] (foreign_log 9 1456))) = Some block_size_mismatch /\
  snd (run (recover sample_env) (with_log (foreign_log 10 1456))) = Er uid_mismatch.
Proof. vm_compute. splits; reflexivity. Qed.

(** C36, refuted without the proviso: a log with another uid and key file size 0
    is accepted; recover() cuts the data file and erases the key file. *)
Theorem C36_foreign_log_refuted : exists e w d k l w',
  w_dat w = Some d /\ w_key w = Some k /\ w_log w = Some l /\ 62 <= blen l /\
  first_failed (dat_checks d ++ log_checks (e_hasher e) l ++ key_checks (e_hasher e) k ++
                dat_key_checks d k ++ key_log_checks k l) = Some uid_mismatch /\
  run (recover e) w = (w', Ok tt) /\ w_key w' = None /\ w_dat w' <> Some d.
Proof.
  exists sample_env, (with_log (foreign_log 10 0)).
  assert (E : exists d k w', w_dat (with_log (foreign_log 10 0)) = Some d /\
    w_key (with_log (foreign_log 10 0)) = Some k /\
    first_failed (dat_checks d ++ log_checks (e_hasher sample_env) (foreign_log 10 0) ++
       key_checks (e_hasher sample_env) k ++ dat_key_checks d k ++ key_log_checks k (foreign_log 10 0)) =
       Some uid_mismatch /\
    run (recover sample_env) (with_log (foreign_log 10 0)) = (w', Ok tt) /\
    w_key w' = None /\ differ (w_dat w') (Some d) = true).
  { do 3 eexists. splits; vm_compute; reflexivity. }
  destruct E as (d & k & w' & H1 & H2 & H3 & H4 & H5 & H6).
  exists d, k, (foreign_log 10 0), w'.
  splits; [exact H1|exact H2|reflexivity|vm_compute; discriminate|exact H3|exact H4|exact H5|].
  apply differ_neq. exact H6.
Qed.

(** C17: the key file is not left alone when it holds no more than a header: it is
    erased, with the log, whatever its contents. *)
Theorem C17_short_key_file_erased : forall e w d k,
  w_dat w = Some d -> w_key w = Some k -> bytes_ok d -> 92 <= blen d -> blen k <= 104 ->
  first_failed (dat_checks d) = None ->
  run (store_open e) w = (World (Some d) None None, Er no_key_file).
Proof. exact short_key_erased. Qed.

Example C17_short_key_example :
  run (store_open sample_env) (World (w_dat pending_files) (Some [104; 101; 108; 108; 111]) None) =
  (World (w_dat pending_files) None None, Er no_key_file).
Proof. vm_compute. reflexivity. Qed.

Print Assumptions C17_open_checks_headers.
Print Assumptions C17_short_key_file_erased.
Print Assumptions C36_bad_log_refused.
Print Assumptions C36_mismatched_log_refused.
Print Assumptions C36_foreign_log_refuted.
