(** C88: failures in lookups and inserts do no harm. *)
From Verif Require Import Model.Bytes Model.Err Model.Field Model.Format Model.IO Model.BulkIO
  Model.Bucket Model.Pool Model.Create Model.Store Model.Verify Model.Crash Spec Model.History
  SpecHeard SpecTrouble SpecVisit SpecVerify Proofs.BytesFacts Proofs.HeardFacts Proofs.HarmlessFacts Proofs.EventFacts
  Proofs.OpsFacts Proofs.VerifyTheorems Props.Samples.
Open Scope N_scope.

(** C88.  Calls of fetch and insert in which file operations failed leave no trace: files and store are those of the
    history without these calls, and a flush or a close() and open() that succeeded is as good as without
    the danger.  So all that is proved about [lived] holds for the store that goes on being used. *)
Theorem C88_no_trace : forall e a l w s, worked e a l w s <-> lived e a l w s.
Proof. intros e a l w s. split; [apply worked_lived|apply lived_worked]. Qed.

(** C88.  Whatever fails, fetch gives the value inserted before, says that there is none, or reports the failure. *)
Theorem C88_fetch : forall e a l w s k S r w' S',
  iter_ok e -> good_args a -> Forall (valid_op (ca_key_size a)) l -> worked e a l w s ->
  blen k = ca_key_size a -> fsteps log_in_order (store_fetch e s k) w S (Ret r) w' S' ->
  w' = w /\ ((exists n, r = Er (EIO n)) \/
    r = match spec_final sempty l k with Some v => Ok v | None => Er key_not_found end).
Proof. exact (fun e a l w s k S r w' S' Hi Ha Hv Hw => look_fetch e a l w s Hi Ha Hv (worked_lived _ _ _ _ _ Hw) k S r w' S'). Qed.

(** C88.  Whatever fails, insert accepts the pair if and only if the key is new, or reports the failure. *)
Theorem C88_insert : forall e a l w s k v S r w' S',
  iter_ok e -> good_args a -> Forall (valid_op (ca_key_size a)) l -> worked e a l w s ->
  blen k = ca_key_size a -> 0 < blen v < 2 ^ 32 -> fsteps log_in_order (store_insert e s k v) w S (Ret r) w' S' ->
  w' = w /\ ((exists n, r = Er (EIO n)) \/
    match spec_final sempty l k with
    | Some _ => r = Er key_exists
    | None => exists s', r = Ok s' /\ worked e a (l ++ [OpInsert k v]) w s'
    end).
Proof.
  intros e a l w s k v S r w' S' Hi Ha Hv Hw Hk V R.
  destruct (look_insert e a l w s Hi Ha Hv (worked_lived _ _ _ _ _ Hw) k v S r w' S' Hk V R) as [E [X|X]];
    (split; [exact E|]); [left; exact X|right].
  destruct (spec_final sempty l k); [exact X|]. destruct X as (s' & X & Y). exists s'.
  split; [exact X|apply lived_worked; exact Y].
Qed.

(** C88.  Whatever fails, verify() reports the failure or gives the true statistics of the records written; it never
    calls such a database broken (block sizes from 116, see C22). *)
Theorem C88_verify : forall e a l w s buf S r w' S',
  iter_ok e -> good_args a -> Forall (valid_op (ca_key_size a)) l -> worked e a l w s -> 116 <= ca_block_size a ->
  fsteps log_in_order (verify e buf) w S (Ret r) w' S' ->
  w' = w /\ ((exists n, r = Er (EIO n)) \/
    exists dat key rs lens v, w_dat w = Some dat /\ w_key w = Some key /\
      database (ca_key_size a) (ca_block_size a) dat key rs lens /\ values rs = written sempty [] [] l /\
      r = Ok v /\ reports v (true_stats (ca_block_size a) rs lens)).
Proof.
  intros e a l w s buf S r w' S' Hi Ha Hv Hw B R.
  split; [exact (reads_fsteps _ _ _ _ _ _ (reads_verify e buf) R)|].
  destruct (hands_on_cases _ _ _ _ _ _ _ (hands_on_same _ (h_verify e buf)) R) as [X|X]; [right|left; exact X].
  destruct (lived_verify_big e a l w s buf Hi Ha Hv (worked_lived _ _ _ _ _ Hw) B)
    as (dat & key & rs & lens & v & D & K & B' & V & E & Y).
  exists dat, key, rs, lens, v. rewrite X, E. exact (conj D (conj K (conj B' (conj V (conj eq_refl Y))))).
Qed.

(** Such a database, with block size 128 and one pair. *)
Example C88_verify_case : exists w s,
  worked sample_env (CreateArgs 7 9 11 2 128 (FVal 1 2)) [OpInsert [1; 2] [3]; OpFlush] w s /\
  good_args (CreateArgs 7 9 11 2 128 (FVal 1 2)).
Proof.
  destruct (life sample_env (CreateArgs 7 9 11 2 128 (FVal 1 2)) [OpInsert [1; 2] [3]; OpFlush]) as [[w [s|]] os] eqn:E.
  - exists w, s. split; [apply lived_worked; exists os; exact E|].
    unfold good_args. cbn. repeat split; try lia; try discriminate.
  - assert (X : match snd (fst (life sample_env (CreateArgs 7 9 11 2 128 (FVal 1 2)) [OpInsert [1; 2] [3]; OpFlush]))
      with Some _ => true | None => false end = true) by (vm_compute; reflexivity).
    rewrite E in X. discriminate X.
Qed.

(** A new store whose insert cannot read the bucket: the store can be used on. *)
Definition trouble_check (s : store) : bool :=
  match store_insert sample_env s [1; 2] [3] with
  | Do (IoRead _ _ _) k => match k (RErr (EIO 5)) with Ret (Er (EIO n)) => n =? 5 | _ => false end
  | _ => false
  end.
Example C88_case : exists w s S S',
  worked sample_env sample_args [] w s /\
  fsteps log_in_order (store_insert sample_env s [1; 2] [3]) w S (Ret (Er (EIO 5))) w S'.
Proof.
  assert (X : match snd (fst (life sample_env sample_args [])) with Some s => trouble_check s | None => false end = true)
    by (vm_compute; reflexivity).
  destruct (life sample_env sample_args []) as [[w [s|]] os] eqn:E; [|discriminate X]. cbn [fst snd] in X.
  unfold trouble_check in X. destruct (store_insert sample_env s [1; 2] [3]) as [r|o k] eqn:P; [discriminate X|].
  destruct o as [f|f|f|f|f off len|f ap off d|f|f len]; try discriminate X.
  destruct (k (RErr (EIO 5))) as [[x|er]|o' k'] eqn:K; try discriminate X.
  destruct er; try discriminate X. apply N.eqb_eq in X. subst.
  exists w, s, (durable w). eexists. split; [constructor; exists os; exact E|].
  rewrite P. eapply fsteps_fail with (n := 5) (w1 := w); [reflexivity|]. rewrite K. constructor.
Qed.

Print Assumptions C88_no_trace.
Print Assumptions C88_fetch.
Print Assumptions C88_insert.
Print Assumptions C88_verify.
