(** C87: a file operation that fails makes the call fail. *)
From Verif Require Import Model.Bytes Model.Err Model.Field Model.Format Model.IO Model.BulkIO
  Model.Bucket Model.Pool Model.Recover Model.Create Model.Store Model.Visit Model.Verify Model.Rekey Model.Crash
  SpecErr SpecHeard Proofs.ErrFacts Proofs.HeardFacts Props.Samples Props.ErrProps.
Open Scope N_scope.

(** C87.  create(), recover() and open() fail, whatever happens to the operations before and after; they may go on
    after a failure, so that they may report another error. *)
Theorem C87_fails : forall e a, fails_too (create e a) /\ fails_too (recover e) /\ fails_too (store_open e).
Proof.
  intros e a. split; [|split]; apply fails_too_some; [apply h_create|apply h_recover|apply h_open].
Qed.

(** C87.  The others stop at the failure and report its error: fetch() does not take it for a key that is not there,
    insert() neither accepts the pair nor calls it a duplicate, verify() does not take it for a broken file. *)
Theorem C87_hands_on : forall e s key data buf ra,
  hands_on (store_fetch e s key) /\ hands_on (store_insert e s key data) /\ hands_on (store_close e s) /\
  hands_on (verify e buf) /\ hands_on (rekey e ra).
Proof.
  intros e s key data buf ra.
  repeat split; apply hands_on_same; [apply h_fetch|apply h_insert|apply h_close|apply h_verify|apply h_rekey].
Qed.

(** C87.  A flush leaves the error in the store, where every later call finds it (C18_error_final). *)
Theorem C87_flush : forall e s n s', ends_failing n (store_flush e s) s' -> st_ec s' = Some (EIO n).
Proof. intros e s n s' H. exact (heard_end _ _ _ _ (h_flush e s) H). Qed.

(** C87.  visit() reports the error, or throws if the read of a key with its value failed. *)
Theorem C87_visit : forall cb n r, ends_failing n (visit cb) r ->
  exists t, r = Ok (t, Er (EIO n)) \/ r = Ok (t, Er EThrow).
Proof. intros cb n r H. exact (heard_end _ _ _ _ (h_visit cb) H). Qed.

(** C87.  All this covers the executions on files in which the operation [o] fails, leaving any part of what it was to
    write, and others fail as well. *)
Theorem C87_executions : forall A (p : prog A) ord w S o k w1 S1 n w2 a w' S',
  fsteps ord p w S (Do o k) w1 S1 -> failed ord o w1 w2 ->
  fsteps ord (k (RErr (EIO n))) w2 (sfail ord o w1 S1) (Ret a) w' S' -> ends_failing n p a.
Proof. intros A p ord w S o k w1 S1 n w2 a w' S' H _ H2. exact (run_ends_failing _ _ _ _ _ _ _ _ _ _ _ _ _ _ H H2). Qed.

(** C87.  So a call that succeeds although operations may fail has the result and leaves the files that it has when
    nothing fails. *)
Theorem C87_success : forall e a s key data buf ra ord w S w' S',
  (fsteps ord (create e a) w S (Ret (Ok tt)) w' S' -> run (create e a) w = (w', Ok tt)) /\
  (fsteps ord (recover e) w S (Ret (Ok tt)) w' S' -> run (recover e) w = (w', Ok tt)) /\
  (forall s', fsteps ord (store_open e) w S (Ret (Ok s')) w' S' -> run (store_open e) w = (w', Ok s')) /\
  (forall v, fsteps ord (store_fetch e s key) w S (Ret (Ok v)) w' S' -> run (store_fetch e s key) w = (w', Ok v)) /\
  (forall s', fsteps ord (store_insert e s key data) w S (Ret (Ok s')) w' S' ->
     run (store_insert e s key data) w = (w', Ok s')) /\
  (fsteps ord (store_close e s) w S (Ret (Ok tt)) w' S' -> run (store_close e s) w = (w', Ok tt)) /\
  (forall i, fsteps ord (verify e buf) w S (Ret (Ok i)) w' S' -> run (verify e buf) w = (w', Ok i)) /\
  (forall t, fsteps ord (rekey e ra) w S (Ret (Ok t)) w' S' -> run (rekey e ra) w = (w', Ok t)).
Proof.
  intros e a s key data buf ra ord w S w' S'.
  destruct (C87_fails e a) as (A1 & A2 & A3). destruct (C87_hands_on e s key data buf ra) as (B1 & B2 & B3 & B4 & B5).
  split; [exact (fails_too_run _ _ _ _ _ _ _ A1)|]. split; [exact (fails_too_run _ _ _ _ _ _ _ A2)|].
  split; [exact (fun x => fails_too_run _ _ _ _ x _ _ A3)|].
  split; [exact (fun x => fails_too_run _ _ _ _ x _ _ (hands_on_fails _ B1))|].
  split; [exact (fun x => fails_too_run _ _ _ _ x _ _ (hands_on_fails _ B2))|].
  split; [exact (fails_too_run _ _ _ _ _ _ _ (hands_on_fails _ B3))|].
  split; [exact (fun x => fails_too_run _ _ _ _ x _ _ (hands_on_fails _ B4))|].
  exact (fun x => fails_too_run _ _ _ _ x _ _ (hands_on_fails _ B5)).
Qed.

(** C87.  The same for a flush that leaves no error in the store, and for a visit() that ends without error or with an
    error of the callback. *)
Theorem C87_flushed : forall e s ord w S s' w' S',
  fsteps ord (store_flush e s) w S (Ret s') w' S' -> st_ec s' = None -> run (store_flush e s) w = (w', s').
Proof.
  intros e s ord w S s' w' S' R N. apply (honest_run _ _ _ _ _ _ _ R s' eq_refl). intros n M.
  pose proof (C87_flush _ _ _ _ M) as X. congruence.
Qed.
Theorem C87_visited : forall cb ord w S t r w' S',
  fsteps ord (visit cb) w S (Ret (Ok (t, r))) w' S' -> r <> Er EThrow -> (forall n, r <> Er (EIO n)) ->
  run (visit cb) w = (w', Ok (t, r)).
Proof.
  intros cb ord w S t r w' S' R N1 N2. apply (honest_run _ _ _ _ _ _ _ R (Ok (t, r)) eq_refl). intros n M.
  destruct (C87_visit _ _ _ M) as [t' [X|X]].
  - apply (N2 n). congruence.
  - apply N1. congruence.
Qed.

(** C87.  Likewise a fetch that does not find the key, an insert that finds it and a verify that finds the files
    broken. *)
Theorem C87_refusal : forall e s key data buf ord w S er w' S', (forall n, er <> EIO n) ->
  (fsteps ord (store_fetch e s key) w S (Ret (Er er)) w' S' -> run (store_fetch e s key) w = (w', Er er)) /\
  (fsteps ord (store_insert e s key data) w S (Ret (Er er)) w' S' ->
     run (store_insert e s key data) w = (w', Er er)) /\
  (fsteps ord (verify e buf) w S (Ret (Er er)) w' S' -> run (verify e buf) w = (w', Er er)).
Proof.
  intros e s key data buf ord w S er w' S' N.
  destruct (C87_hands_on e s key data buf (RekeyArgs 0 0 FNaN None 0)) as (B1 & B2 & _ & B4 & _).
  split; [|split]; intros H; [exact (hands_on_run _ _ _ _ _ _ _ B1 H N)|exact (hands_on_run _ _ _ _ _ _ _ B2 H N)|
    exact (hands_on_run _ _ _ _ _ _ _ B4 H N)].
Qed.

(** create() fails to create the key file and then to erase the data file: the first error is reported. *)
Example C87_create_case :
  ends_failing 6 (create sample_env sample_args) (Er (EIO 5)) /\
  ends_failing 5 (create sample_env sample_args) (Er (EIO 5)).
Proof.
  split.
  - apply (ef_ok _ _ _ 0 []). apply (ef_err _ _ _ (EIO 5)); [exact I|]. apply ef_this. constructor.
  - apply (ef_ok _ _ _ 0 []). apply ef_this. apply (me_ok _ _ 0 []). constructor.
Qed.

(** The flush of a store with one pair: reading the bucket of the key, the sixth operation, fails. *)
Definition heard_store : store :=
  Store (KeyHeader [] 2 1 2 2 3 4 104 32768 5 1 1) pool_empty (pool_insert pool_empty 7 [1; 2] [3]) [] 32768 65536 1 1 None.
Example C87_flush_case : exists s', ends_failing 5 (store_flush sample_env heard_store) s' /\
  st_ec s' = Some (EIO 5).
Proof.
  eexists. split.
  - apply (ef_ok _ _ _ 208 []). apply (ef_ok _ _ _ 92 []). apply (ef_ok _ _ _ 0 []). apply (ef_ok _ _ _ 0 []).
    apply (ef_ok _ _ _ 92 []). apply ef_this. apply me_ret.
  - reflexivity.
Qed.

(** A fetch that cannot read the bucket, and one that finds it empty. *)
Example C87_fetch_case :
  ends_failing 5 (store_fetch sample_env heard_store [3; 4]) (Er (EIO 5)) /\
  may_end (store_fetch sample_env heard_store [3; 4]) (Er key_not_found).
Proof.
  split.
  - apply ef_this. apply me_ret.
  - apply (me_ok _ _ 0 (zeros 104)). vm_compute. apply me_ret.
Qed.

Lemma feed_failing {A} n l : forall (p : prog A) a, forallb answer_okb l = true -> In (RErr (EIO n)) l ->
  feed p l = Some a -> ends_failing n p a.
Proof.
  induction l as [|r l IH]; intros [a'|o k] a Ho Hi H; cbn [feed] in H; try discriminate; [destruct Hi|].
  cbn [forallb] in Ho. apply andb_prop in Ho as [Hr Ho]. destruct Hi as [->|Hi].
  - apply ef_this. exact (feed_end l _ _ Ho H).
  - specialize (IH _ _ Ho Hi H). destruct r as [e|m d].
    + apply (ef_err _ _ _ e); [|exact IH]. destruct e; try discriminate; exact I.
    + exact (ef_ok _ _ _ m d _ IH).
Qed.

(** A visit that cannot read the first record, and one that cannot read the rest of a value longer than its buffer. *)
Example C87_visit_case :
  ends_failing 5 (visit refuse) (Ok ([VProgress 0 101], Er (EIO 5))) /\
  ends_failing 5 (visit refuse) (Ok ([VProgress 0 10000000], Er EThrow)).
Proof.
  split.
  - apply (feed_failing 5 [ok0; dh_good; sz 101; RErr (EIO 5)]); [reflexivity|cbn; tauto|]. vm_compute. reflexivity.
  - apply (feed_failing 5 [ok0; dh_good; sz 10000000; rd (wr48 4500000 ++ [1; 2; 3]); RErr (EIO 5)]);
      [reflexivity|cbn; tauto|]. vm_compute. reflexivity.
Qed.

(** Recovery that cannot read the header of the key file. *)
Example C87_recover_case : ends_failing 5 (recover sample_env) (Er (EIO 5)).
Proof.
  apply (feed_failing 5 [ok0; sz 92; dh_good; ok0; sz 208; ok0; sz 78; lh_good; RErr (EIO 5)]);
    [reflexivity|cbn; tauto|]. vm_compute. reflexivity.
Qed.

(** Executions without failures are among those of C87_success and C87_refusal: a create() that succeeds and a fetch
    that does not find the key. *)
Lemma run_fsteps ord {A} (p : prog A) : forall w S, exists S',
  fsteps ord p w S (Ret (snd (run p w))) (fst (run p w)) S'.
Proof.
  induction p as [a|o k IH]; intros w S; cbn [run].
  - exists S. constructor.
  - destruct (exec o w) as [v r] eqn:X. destruct (IH r v (sexec ord o w S)) as [S' H]. exists S'.
    apply fsteps_ok. rewrite X. exact H.
Qed.
Example C87_success_case : exists w' S',
  fsteps log_in_order (create sample_env sample_args) (World None None None) (durable (World None None None))
    (Ret (Ok tt)) w' S'.
Proof.
  destruct (run_fsteps log_in_order (create sample_env sample_args) (World None None None)
    (durable (World None None None))) as [S' H].
  exists (fst (run (create sample_env sample_args) (World None None None))), S'.
  assert (E : snd (run (create sample_env sample_args) (World None None None)) = Ok tt) by (vm_compute; reflexivity).
  rewrite E in H. exact H.
Qed.
Example C87_refusal_case : exists w S w' S',
  fsteps log_in_order (store_fetch sample_env heard_store [3; 4]) w S (Ret (Er key_not_found)) w' S' /\
  forall n, key_not_found <> EIO n.
Proof.
  set (w := World None (Some (zeros 208)) None).
  destruct (run_fsteps log_in_order (store_fetch sample_env heard_store [3; 4]) w (durable w)) as [S' H].
  exists w, (durable w), (fst (run (store_fetch sample_env heard_store [3; 4]) w)), S'.
  split; [|intros n X; discriminate X].
  assert (E : snd (run (store_fetch sample_env heard_store [3; 4]) w) = Er key_not_found) by (vm_compute; reflexivity).
  rewrite E in H. exact H.
Qed.

Example C87_flushed_case : exists w S s' w' S',
  fsteps log_in_order (store_flush sample_env heard_store) w S (Ret s') w' S' /\ st_ec s' = None.
Proof.
  set (w := World (Some (zeros 92)) (Some (zeros 208)) (Some [])).
  destruct (run_fsteps log_in_order (store_flush sample_env heard_store) w (durable w)) as [S' H].
  exists w, (durable w), (snd (run (store_flush sample_env heard_store) w)),
    (fst (run (store_flush sample_env heard_store) w)), S'.
  split; [exact H|]. vm_compute. reflexivity.
Qed.
Example C87_visited_case : exists w S w' S',
  fsteps log_in_order (visit refuse) w S (Ret (Ok ([VProgress 0 101; VItem [1; 2] [3]], Er (ECallback 5)))) w' S'.
Proof.
  set (w := World (Some (match dh_good with ROk _ d => d | RErr _ => [] end ++ wr48 1 ++ [1; 2; 3])) None None).
  destruct (run_fsteps log_in_order (visit refuse) w (durable w)) as [S' H].
  exists w, (durable w), (fst (run (visit refuse) w)), S'.
  assert (E : snd (run (visit refuse) w) = Ok ([VProgress 0 101; VItem [1; 2] [3]], Er (ECallback 5)))
    by (vm_compute; reflexivity).
  rewrite E in H. exact H.
Qed.

Print Assumptions C87_fails.
Print Assumptions C87_hands_on.
Print Assumptions C87_flush.
Print Assumptions C87_visit.
Print Assumptions C87_executions.
Print Assumptions C87_success.
Print Assumptions C87_refusal.
Print Assumptions C87_flushed.
Print Assumptions C87_visited.
