(** C23, C39 and the part of C17 about verify(): what the success of verify() means
    for files with arbitrary contents. *)
From Verif Require Import Model.Bytes Model.Err Model.Field Model.Format Model.IO Model.BulkIO
  Model.Bucket Model.Pool Model.Recover Model.Create Model.Store Model.History Model.Visit Model.Verify Model.Events
  Spec SpecFormat SpecHeader SpecDisk SpecVisit SpecVerify Proofs.BytesFacts Proofs.RefuseFacts
  Proofs.VerifyIndex Proofs.VerifyRecords Proofs.VerifyErrors
  Props.Samples Props.CrashSamples Props.RefuseProps Props.VerifyProps.

(** C17.  verify() of any data and key file with complete headers reports the error of
    the first condition of SpecHeader.v that fails. *)
Theorem C17_verify_checks_headers : forall e w d k buf er,
  w_dat w = Some d -> w_key w = Some k -> bytes_ok d -> bytes_ok k -> 92 <= blen d -> 104 <= blen k ->
  first_failed (dat_checks d ++ key_checks (e_hasher e) k ++ dat_key_checks d k) = Some er ->
  run (verify e buf) w = (w, Er er).
Proof.
  intros e w d k buf er Wd Wk Dok Kok Dl Kl HF.
  pose proof (verify_checked e d k w Wd Wk Dok Kok Dl Kl buf) as H. rewrite HF in H. exact H.
Qed.

(** C17.  It changes no file, whatever the files hold and whatever it reports. *)
Theorem C17_verify_changes_nothing : forall e buf w, fst (run (verify e buf) w) = w.
Proof. exact (fun e buf w => proj1 (gives_verify e buf w)). Qed.

Example C17_verify_example :
  map (fun w => snd (run (verify sample_env 5000) w)) (map altered [17; 25; 27; 35; 7; 9; 44]) =
  [Er uid_mismatch; Er appnum_mismatch; Er key_size_mismatch; Er hash_mismatch; Er not_key_file;
   Er different_version; Er invalid_bucket_count].
Proof. vm_compute. reflexivity. Qed.

(** C23.  For every data and key file: when verify() succeeds, the bytes behind the
    data file header are a sequence of records [cs], and the database can be opened and
    knows the key of every record: insert() of any of them reports key_exists (no key is
    orphaned).  If verify() used the algorithm for small buffers, counted as many keys
    as values, and the size fields have no bits above the lowest 32, then fetch() of any
    of these keys returns the value of a record with that key.  Without these conditions
    the values may be wrong: see the refutations below. *)
Theorem C23_no_orphans_partial : forall e d k w buf w1 v,
  w_dat w = Some d -> w_key w = Some k -> w_log w = None -> bytes_ok d -> bytes_ok k -> files_fit w ->
  run (verify e buf) w = (w1, Ok v) ->
  w1 = w /\ exists cs w' s,
    bdrop 92 d = flat_map chunk_image cs /\ Forall (chunk_ok (num_at 26 2 d)) cs /\
    (if vi_algorithm v =? 0 then Forall by_count cs else Forall by_size cs) /\
    run (store_open e) w = (w', Ok s) /\ same_files w' w /\
    (forall m kk x data, In (CVal m kk x) cs -> 0 < blen data < 2 ^ 32 ->
       run (store_insert e s kk data) w' = (w', Er key_exists)) /\
    (vi_algorithm v = 0 -> vi_key_count v = vi_value_count v -> Forall plain cs ->
     forall m kk x, In (CVal m kk x) cs ->
       exists m' x', In (CVal m' kk x') cs /\ run (store_fetch e s kk) w' = (w', Ok x')).
Proof. exact verify_sound. Qed.

(** C23.  The same for a data file made of the records [rs] of the documented format. *)
Theorem C23_records_partial : forall e w buf v rs,
  record_files w rs -> run (verify e buf) w = (w, Ok v) ->
  exists w' s, run (store_open e) w = (w', Ok s) /\ same_files w' w /\
    (forall kk x data, In (kk, x) (values rs) -> 0 < blen data < 2 ^ 32 ->
       run (store_insert e s kk data) w' = (w', Er key_exists)) /\
    (vi_algorithm v = 0 -> vi_key_count v = vi_value_count v ->
     forall kk x, In (kk, x) (values rs) ->
       exists x', In (kk, x') (values rs) /\ run (store_fetch e s kk) w' = (w', Ok x')).
Proof.
  intros e w buf v rs (hdr & k & Wd & Hh & Wk & Wl & Dok & Kok & Hf & Hr & Hb) Hv.
  exact (proj2 (verify_records e w buf w v hdr k rs Wd Hh Wk Wl Dok Kok Hf Hr Hb Hv)).
Qed.

(** ** Concrete files
    A database with two keys of the same hash, the first value of which looks like a
    record of the second key. *)
Definition inner : bytes := be 6 3 ++ [3; 0] ++ [9; 9; 9].
Definition two_records : list record := [Value [0; 3] inner; Value [3; 0] [1; 2]].
Definition two_life : list op := [OpInsert [0; 3] inner; OpInsert [3; 0] [1; 2]; OpFlush].
Definition two_files : world := wset (fst (fst (life sample_env args120 two_life))) FLog None.
(** The files with other bytes in the data or key file. *)
Definition patched (f : fname) (off : N) (b : bytes) : world :=
  match wget two_files f with Some c => wset two_files f (Some (bwrite off b c)) | None => two_files end.

Definition record_files_b (w : world) (rs : list record) : bool :=
  match w_dat w, w_key w, w_log w with
  | Some d, Some k, None =>
    beq d (btake 92 d ++ flat_map image rs) && (92 <=? blen d) && octets d && octets k && short_files w &&
    (num_at 26 2 (btake 92 d) =? 2)
  | _, _, _ => false
  end.
Lemma record_files_b_ok w rs : record_files_b w rs = true -> Forall (record_ok 2) rs -> Forall bucket_inside rs ->
  record_files w rs.
Proof.
  unfold record_files_b. destruct (w_dat w) as [d|] eqn:Wd; [|discriminate].
  destruct (w_key w) as [k|] eqn:Wk; [|discriminate]. destruct (w_log w) as [l|] eqn:Wl; [discriminate|].
  intros H R1 R2. repeat match type of H with _ && _ = true => let X := fresh in apply andb_prop in H as [H X] end.
  apply beq_eq in H. exists (btake 92 d), k. apply N.leb_le in H4. apply N.eqb_eq in H0.
  split; [rewrite <- H; exact Wd|]. split; [rewrite blen_btake; lia|]. split; [exact Wk|]. split; [exact Wl|].
  split; [rewrite <- H; apply octets_ok; assumption|]. split; [apply octets_ok; assumption|].
  split; [apply short_files_fit; assumption|]. split; [rewrite H0; exact R1|exact R2].
Qed.
Lemma two_records_ok : Forall (record_ok 2) two_records.
Proof. repeat constructor. Qed.
Lemma two_records_inside : Forall bucket_inside two_records.
Proof. repeat constructor. Qed.

Definition accepts (buf : N) (w : world) : bool :=
  match run (verify sample_env buf) w with (w', Ok _) => same_result (w', Ok tt) (w, Ok tt) | _ => false end.
Lemma accepts_ok buf w : accepts buf w = true -> exists v, run (verify sample_env buf) w = (w, Ok v).
Proof.
  unfold accepts. destruct (run _ w) as [w' [v|er]]; [|intros X; discriminate X].
  intros X. apply same_world in X. rewrite X. exists v. reflexivity.
Qed.
Definition fetches (k x : bytes) (w : world) : bool :=
  match run (store_open sample_env) w with
  | (w', Ok s) => match run (store_fetch sample_env s k) w' with
                  | (w2, Ok x') => beq x x' && same_result (w2, Ok tt) (w', Ok tt) | _ => false end
  | _ => false
  end.
Lemma fetches_ok k x w : fetches k x w = true -> exists w' s, run (store_open sample_env) w = (w', Ok s) /\
  run (store_fetch sample_env s k) w' = (w', Ok x).
Proof.
  unfold fetches. destruct (run _ w) as [w' [s|er]]; [|intros X; discriminate X]. intros X. exists w', s.
  split; [reflexivity|]. destruct (run _ w') as [w2 [x'|er]]; [|discriminate X]. apply andb_prop in X as [X1 X2].
  apply beq_eq in X1. apply same_world in X2. rewrite X1, X2. reflexivity.
Qed.

(** The hypotheses hold of the database itself, with both algorithms. *)
Example C23_example : record_files two_files two_records /\
  match run (verify sample_env 0) two_files, run (verify sample_env 5000) two_files with
  | (_, Ok v), (_, Ok v') => (vi_algorithm v, vi_key_count v, vi_value_count v) = (0, 2, 2) /\ vi_algorithm v' = 1
  | _, _ => False
  end /\ fetches [3; 0] [1; 2] two_files = true.
Proof.
  split; [|vm_compute; auto].
  apply record_files_b_ok; [vm_compute; reflexivity|exact two_records_ok|exact two_records_inside].
Qed.

(** C23 is false of the code: the algorithm for large buffers does not compare the sizes
    in the key file with those in the data file.  Here the size of an entry of the key
    file is 1 instead of 2; verify() succeeds and fetch() returns a part of the value. *)
Theorem C23_sizes_refuted : exists e w buf v rs kk x x' w' s,
  record_files w rs /\ run (verify e buf) w = (w, Ok v) /\ In (kk, x) (values rs) /\
  run (store_open e) w = (w', Ok s) /\ run (store_fetch e s kk) w' = (w', Ok x') /\ ~ In (kk, x') (values rs).
Proof.
  set (w := patched FKey (120 + 8 + 11) [1]).
  destruct (accepts_ok 5000 w) as (v & Hv); [vm_compute; reflexivity|].
  destruct (fetches_ok [3; 0] [1] w) as (w' & s & H1 & H2); [vm_compute; reflexivity|].
  exists sample_env, w, 5000, v, two_records, [3; 0], [1; 2], [1], w', s.
  split; [apply record_files_b_ok; [vm_compute; reflexivity|exact two_records_ok|exact two_records_inside]|].
  split; [exact Hv|]. split; [cbn; auto|]. split; [exact H1|]. split; [exact H2|].
  cbn. intros [X|[X|X]]; [discriminate X|discriminate X|exact X].
Qed.

(** ... and the algorithm for small buffers does not object to an additional entry that
    points into a value: fetch() returns a part of another value. *)
Theorem C23_entries_refuted : exists e w buf v rs kk x x' w' s,
  record_files w rs /\ run (verify e buf) w = (w, Ok v) /\ vi_algorithm v = 0 /\ In (kk, x) (values rs) /\
  run (store_open e) w = (w', Ok s) /\ run (store_fetch e s kk) w' = (w', Ok x') /\ ~ In (kk, x') (values rs).
Proof.
  set (w := patched FKey 120 (be 2 3 ++ be 6 0 ++ (be 6 100 ++ be 6 3 ++ be 6 3) ++
              (be 6 111 ++ be 6 2 ++ be 6 3) ++ (be 6 92 ++ be 6 11 ++ be 6 3))).
  destruct (accepts_ok 0 w) as (v & Hv); [vm_compute; reflexivity|].
  destruct (fetches_ok [3; 0] [9; 9; 9] w) as (w' & s & H1 & H2); [vm_compute; reflexivity|].
  exists sample_env, w, 0, v, two_records, [3; 0], [1; 2], [9; 9; 9], w', s.
  split; [apply record_files_b_ok; [vm_compute; reflexivity|exact two_records_ok|exact two_records_inside]|].
  split; [exact Hv|]. split.
  { assert (X : match run (verify sample_env 0) w with (_, Ok v) => vi_algorithm v = 0 | _ => False end)
      by (vm_compute; reflexivity). rewrite Hv in X. exact X. }
  split; [cbn; auto|]. split; [exact H1|]. split; [exact H2|].
  cbn. intros [X|[X|X]]; [discriminate X|discriminate X|exact X].
Qed.

(** C39 is false of the code: verify() never reports duplicate_value, whatever the files
    hold ... *)
Theorem C39_never_reported_refuted : forall e buf w, snd (run (verify e buf) w) <> Er duplicate_value.
Proof. exact (fun e buf w => proj2 (gives_verify e buf w)). Qed.

(** ... and both algorithms accept files with two records of the same key. *)
Theorem C39_duplicates_refuted : exists e w rs buf buf' v v',
  record_files w rs /\ ~ NoDup (map fst (values rs)) /\
  run (verify e buf) w = (w, Ok v) /\ vi_algorithm v = 0 /\
  run (verify e buf') w = (w, Ok v') /\ vi_algorithm v' = 1.
Proof.
  set (w := patched FDat (111 + 6) [0; 3]).
  destruct (accepts_ok 0 w) as (v & Hv); [vm_compute; reflexivity|].
  destruct (accepts_ok 5000 w) as (v' & Hv'); [vm_compute; reflexivity|].
  exists sample_env, w, [Value [0; 3] inner; Value [0; 3] [1; 2]], 0, 5000, v, v'.
  split; [apply record_files_b_ok; [vm_compute; reflexivity|repeat constructor|repeat constructor]|].
  split; [cbn; intros X; inversion X as [|? ? X1 X2]; apply X1; left; reflexivity|].
  split; [exact Hv|]. split.
  { assert (X : match run (verify sample_env 0) w with (_, Ok v) => vi_algorithm v = 0 | _ => False end)
      by (vm_compute; reflexivity). rewrite Hv in X. exact X. }
  split; [exact Hv'|].
  assert (X : match run (verify sample_env 5000) w with (_, Ok v) => vi_algorithm v = 1 | _ => False end)
    by (vm_compute; reflexivity). rewrite Hv' in X. exact X.
Qed.

Print Assumptions C17_verify_checks_headers.
Print Assumptions C17_verify_changes_nothing.
Print Assumptions C23_no_orphans_partial.
Print Assumptions C23_records_partial.
Print Assumptions C23_sizes_refuted.
Print Assumptions C23_entries_refuted.
Print Assumptions C39_never_reported_refuted.
Print Assumptions C39_duplicates_refuted.
