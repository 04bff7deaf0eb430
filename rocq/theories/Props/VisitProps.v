(** C19, C38, C41: visit(). *)
From Verif Require Import Model.Bytes Model.Err Model.Field Model.Format Model.IO Model.BulkIO
  Model.Bucket Model.Pool Model.Recover Model.Create Model.Store Model.History Model.Visit Model.Events
  Spec SpecFormat SpecHeader SpecVisit Proofs.BytesFacts Proofs.RefuseFacts Proofs.VisitFacts
  Proofs.WrittenFacts Proofs.VisitTheorems Props.Samples.

(** C19.  visit() of any data file that is a valid 92 byte header followed by
    complete records makes exactly the calls of [spec_visit] (SpecVisit.v),
    reports the error of the callback or success, and changes nothing. *)
Theorem C19_visit_file : forall cb w hdr l,
  let d := hdr ++ flat_map image l in
  w_dat w = Some d -> blen hdr = 92 -> bytes_ok hdr -> first_failed (dat_checks d) = None ->
  Forall (record_ok (num_at 26 2 d)) l -> blen d < 2 ^ 64 ->
  exists calls, run (visit cb) w = (w, Ok calls) /\
    match spec_visit cb (blen d) 92 [VProgress 0 (blen d)] l with
    | (t, None) => calls = (t, Ok tt)
    | (t, Some er) => calls = (t, Er er)
    end.
Proof. exact visit_file_calls. Qed.

(** C19.  visit() of any database reached by a history of calls presents the
    flushed values of the history, each once, in the order of [written], until the
    callback reports an error. *)
Theorem C19_visit_database : forall e a l w s cb,
  iter_ok e -> good_args a -> Forall (valid_op (ca_key_size a)) l -> lived e a l w s ->
  let W := written sempty [] [] l in
  NoDup (map fst W) /\
  (forall k v, In (k, v) W <-> spec_durable sempty sempty l k = Some v) /\
  exists calls r, run (visit cb) w = (w, Ok (calls, r)) /\
    ((r = Ok tt /\ items calls = W /\ no_error cb calls) \/
     (exists before k v er rest,
        calls = before ++ [VItem k v] /\ cb before k v = Some er /\ r = Er er /\
        no_error cb before /\ items calls ++ rest = W)).
Proof. exact visit_database. Qed.

(** C41.  The progress reported while visiting never decreases and never exceeds
    the reported total, which is the size of the data file. *)
Theorem C41_visit_progress : forall e a l w s cb d,
  iter_ok e -> good_args a -> Forall (valid_op (ca_key_size a)) l -> lived e a l w s ->
  w_dat w = Some d ->
  exists calls r, run (visit cb) w = (w, Ok (calls, r)) /\ progress_ok 0 (blen d) calls.
Proof. exact visit_progress. Qed.

(** C19.  A data file that is missing, shorter than its header, or has a bad header
    is refused before any call. *)
Theorem C19_visit_refused : forall cb w,
  (w_dat w = None -> run (visit cb) w = (w, Ok ([], Er ENoEnt))) /\
  (forall d, w_dat w = Some d -> blen d < 92 -> run (visit cb) w = (w, Ok ([], Er short_read))) /\
  (forall d er, w_dat w = Some d -> bytes_ok d -> 92 <= blen d -> first_failed (dat_checks d) = Some er ->
    run (visit cb) w = (w, Ok ([], Er er))).
Proof. exact visit_refused. Qed.

(** C38.  A data file whose last record [x] is cut to its first [n] bytes: all
    complete records are visited as usual; then short_read is reported if the cut is
    in a spill record or in the size of a value, but std::logic_error is thrown
    (EThrow) if it is in the key or the bytes of a value. *)
Theorem C38_truncated : forall cb w hdr l x n,
  let d := hdr ++ flat_map image l ++ btake n (image x) in
  w_dat w = Some d -> blen hdr = 92 -> bytes_ok hdr -> first_failed (dat_checks d) = None ->
  Forall (record_ok (num_at 26 2 d)) (l ++ [x]) -> 0 < n < blen (image x) -> blen d < 2 ^ 64 ->
  exists calls, run (visit cb) w = (w, Ok calls) /\
    match spec_visit cb (blen d) 92 [VProgress 0 (blen d)] l with
    | (t, None) => calls = (t, Er match x with
        | Value _ _ => if n <? 6 then short_read else EThrow
        | Spill _ => short_read
        end)
    | (t, Some er) => calls = (t, Er er)
    end.
Proof. exact visit_truncated_calls. Qed.

(** ** A concrete database *)
Definition sample_files : world := fst (fst (life sample_env sample_args sample_life)).
Definition never : callback := fun _ _ _ => None.
(** A callback that stops at the third value. *)
Definition third : callback := fun t _ _ =>
  if N.of_nat (length (items t)) =? 2 then Some (ECallback 5) else None.

(** 31 values, among spill records. *)
Example C19_sample :
  match run (visit never) sample_files with
  | (_, Ok (calls, Ok tt)) =>
    forallb (fun xy => beq (fst (fst xy)) (fst (snd xy)) && beq (snd (fst xy)) (snd (snd xy)))
      (combine (items calls) (written sempty [] [] sample_life)) = true /\
    length (items calls) = 31%nat /\ length (written sempty [] [] sample_life) = 31%nat
  | _ => False
  end.
Proof. vm_compute. auto. Qed.

Example C19_sample_stop :
  match run (visit third) sample_files with
  | (_, Ok (calls, r)) => length (items calls) = 3%nat /\ r = Er (ECallback 5)
  | _ => False
  end.
Proof. vm_compute. auto. Qed.

(** The hypotheses of the theorems about files hold for a small file with a value
    and a spill record, whole or cut. *)
Definition small_hdr : bytes := enc_dat_header (create_dat_header sample_args).
Definition small_recs : list record := [Value [1; 2] [3; 4; 5]; Spill [9; 9]].
Definition last_rec : record := Value [7; 8] [1; 1; 1; 1].
Definition cut (n : N) : bytes := small_hdr ++ flat_map image small_recs ++ btake n (image last_rec).
Definition only_dat (d : bytes) : world := World (Some d) None None.

Example C38_hypotheses : forall n, n = 3 \/ n = 9 ->
  blen small_hdr = 92 /\ bytes_ok small_hdr /\ first_failed (dat_checks (cut n)) = None /\
  Forall (record_ok (num_at 26 2 (cut n))) (small_recs ++ [last_rec]) /\
  0 < n < blen (image last_rec) /\ blen (cut n) < 2 ^ 64.
Proof.
  intros n [-> | ->]; (split; [vm_compute; reflexivity|]); (split; [unfold small_hdr; repeat constructor|]);
    (split; [vm_compute; reflexivity|]); (split; [|split; [vm_compute; auto|vm_compute; reflexivity]]);
    repeat constructor; vm_compute; reflexivity.
Qed.

Example C38_short : run (visit never) (only_dat (cut 3)) =
  (only_dat (cut 3), Ok ([VProgress 0 116; VItem [1; 2] [3; 4; 5]; VProgress 103 116; VProgress 113 116],
    Er short_read)).
Proof. vm_compute. reflexivity. Qed.

(** C38 as stated fails: a truncated data file makes visit() throw. *)
Theorem C38_truncated_refuted : exists hdr l x n,
  let d := hdr ++ flat_map image l ++ btake n (image x) in
  blen hdr = 92 /\ first_failed (dat_checks d) = None /\
  Forall (record_ok (num_at 26 2 d)) (l ++ [x]) /\ 0 < n < blen (image x) /\
  exists t, run (visit never) (only_dat d) = (only_dat d, Ok (t, Er EThrow)).
Proof.
  exists small_hdr, small_recs, last_rec, 9. cbv zeta.
  split; [vm_compute; reflexivity|]. split; [vm_compute; reflexivity|].
  split; [repeat constructor; vm_compute; reflexivity|]. split; [vm_compute; auto|].
  exists [VProgress 0 122; VItem [1; 2] [3; 4; 5]; VProgress 103 122; VProgress 113 122].
  vm_compute. reflexivity.
Qed.

Print Assumptions C19_visit_file.
Print Assumptions C19_visit_database.
Print Assumptions C19_visit_refused.
Print Assumptions C38_truncated.
Print Assumptions C38_truncated_refuted.
Print Assumptions C41_visit_progress.
