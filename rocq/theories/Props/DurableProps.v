(** C44: the store used by several threads, on a machine that may stop at any moment. *)
From Verif Require Import Model.Bytes Model.Err Model.Format Model.IO Model.Bucket Model.Pool Model.Recover
  Model.Create Model.Store Spec SpecLin SpecDurable Model.History Model.Crash Model.Events Model.Concurrent
  Model.ConcCrash Proofs.BytesFacts Proofs.StoreInv Proofs.LifeFacts Proofs.SafeFacts Proofs.EventFacts
  Proofs.LinFacts Proofs.DurableFacts Proofs.ConcDurable Props.Samples Props.ConcurrentProps.

(** ** A concrete execution, to show that hypotheses can be met *)
(** A stop after which the disk is found with everything that was written. *)
Inductive dact := DAct (a : act) | DHalt.

Definition do_dact (e : env) (ks : N) (x : xst) (a : dact) : option (list dev * xst) :=
  match a with
  | DAct AFlush =>
    match flush_step e x with
    | Some x' => Some (flush_seen x x', x')
    | None => None
    end
  | DAct a => match do_act e ks x a with Some (h, x') => Some (map DEv h, x') | None => None end
  | DHalt =>
    match run (store_open e) (x_w x) with
    | (w3, Ok s3) => Some ([DStop], xinit s3 w3)
    | _ => None
    end
  end.
Fixpoint do_dacts (e : env) (ks : N) (x : xst) (h : list dev) (l : list dact) : option (list dev * xst) :=
  match l with
  | [] => Some (h, x)
  | a :: l' => match do_dact e ks x a with Some (h', x') => do_dacts e ks x' (h ++ h') l' | None => None end
  end.
Definition dacts_valid (ks : N) (l : list dact) : Prop :=
  Forall (fun a => match a with DAct (ACall _ c) => valid_op ks c | _ => True end) l.

Lemma thread_live e x t h x' S : thread_step e x t = Some (h, x') -> on_disk S (x_w x) ->
  on_disk (io_disk (thread_io (x_th x t)) (x_w x) S) (x_w x').
Proof.
  intros Ht Hd.
  assert (E : x_w x' = match thread_io (x_th x t) with Some o => fst (exec o (x_w x)) | None => x_w x end).
  { revert Ht. unfold thread_step. cbv zeta.
    destruct (x_th x t) as [|k|n b q|n g q|k v|k v|k v n b q|k v q|k v n g q|k v|o]; cbn [thread_io];
      try discriminate;
      try (destruct q as [[[|]|]|o c]); try (destruct q as [r|o c]);
      try (destruct (x_u x); try discriminate); try (destruct (x_m x =? 0); try discriminate);
      cbn [next_op]; try (destruct (exec o (x_w x)) as [w r] eqn:E);
      intros Hs; injection Hs as <- <-; try reflexivity.
    all: first [apply fetch_keeps|apply insert_keeps]. }
  rewrite E. destruct (thread_io (x_th x t)) as [o|]; cbn [io_disk]; auto. apply live_on_disk. exact Hd.
Qed.
Lemma flush_live e x x' S : flush_step e x = Some x' -> on_disk S (x_w x) ->
  on_disk (io_disk (flush_io (x_fl x)) (x_w x) S) (x_w x').
Proof.
  intros Ht Hd.
  assert (E : x_w x' = match flush_io (x_fl x) with Some o => fst (exec o (x_w x)) | None => x_w x end).
  { revert Ht. unfold flush_step. cbv zeta.
    destruct (x_fl x) as [|[[|]|o c]|[[|]|o c]| |[[|]|o c]]; cbn [flush_io next_op];
      try (destruct (x_m x =? 0)); try (destruct (g_finished (x_g x))); try (destruct (pool_is_empty _));
      try (destruct (exec o (x_w x)) as [w r] eqn:E); try discriminate;
      intros Hs; injection Hs as <-; reflexivity. }
  rewrite E. destruct (flush_io (x_fl x)) as [o|]; cbn [io_disk]; auto. apply live_on_disk. exact Hd.
Qed.

Lemma do_dacts_exec e c0 ks l : forall x S h h' x',
  dacts_valid ks l -> cexec e c0 h (CMach x S) -> on_disk S (x_w x) -> do_dacts e ks x h l = Some (h', x') ->
  exists S', cexec e c0 h' (CMach x' S') /\ on_disk S' (x_w x').
Proof.
  induction l as [|a l IH]; intros x S h h' x' Hv Hx Hdk Hd; cbn [do_dacts] in Hd.
  - injection Hd as <- <-. eauto.
  - inversion Hv as [|? ? Ha Hl]; subst. destruct (do_dact e ks x a) as [[h1 x1]|] eqn:E; [|discriminate].
    destruct a as [[t c|t|]|]; cbn [do_dact do_act] in E.
    + destruct (x_th x t) eqn:Et; try discriminate. destruct (call_state c) eqn:Ec; [|discriminate].
      destruct (N.eqb_spec (kh_key_size (st_kh (x_s x))) ks) as [Ek|]; [|discriminate].
      injection E as <- <-. apply (IH _ S _ _ _ Hl) in Hd; auto. eapply ce_step; [exact Hx|].
      apply cs_call; auto. rewrite Ek. exact Ha.
    + destruct (thread_step e x t) as [[h2 x2]|] eqn:Et; [|discriminate]. injection E as <- <-.
      eapply (IH _ _ _ _ _ Hl) in Hd; [exact Hd| |eapply thread_live; [exact Et|exact Hdk]].
      eapply ce_step; [exact Hx|]. apply cs_thread. exact Et.
    + destruct (flush_step e x) eqn:Ef; [|discriminate].
      injection E as <- <-.
      eapply (IH _ _ _ _ _ Hl) in Hd; [exact Hd| |eapply flush_live; [exact Ef|exact Hdk]].
      eapply ce_step; [exact Hx|]. apply cs_flush. exact Ef.
    + destruct (run (store_open e) (x_w x)) as [w3 [s3|]] eqn:Er; [|discriminate].
      injection E as <- <-.
      eapply (IH _ _ _ _ _ Hl) in Hd; [exact Hd| |].
      * eapply ce_step; [exact Hx|]. eapply cs_stop; [exact Hdk|apply int_none|exact Er].
      * cbn [x_w xinit]. eapply live_run; [exact Er|apply durable_live].
Qed.

Definition dafter (e : env) (a : create_args) (acts : list dact) : option (list dev * xst) :=
  match run (create e a) no_files with
  | (w1, Ok tt) =>
    match run (store_open e) w1 with
    | (w2, Ok s) => do_dacts e (ca_key_size a) (xinit s w2) [] acts
    | _ => None
    end
  | _ => None
  end.
Lemma dafter_use e a acts h x : dacts_valid (ca_key_size a) acts -> dafter e a acts = Some (h, x) ->
  exists S, durable_use e a h (CMach x S) /\ on_disk S (x_w x).
Proof.
  unfold dafter. destruct (run (create e a) no_files) as [w1 [[]|]] eqn:E1; [|discriminate].
  destruct (run (store_open e) w1) as [w2 [s|]] eqn:E2; [|discriminate]. intros Hv Hd.
  set (S0 := srun log_in_order (store_open e) w1 (srun log_in_order (create e a) no_files (durable no_files))).
  assert (HS0 : on_disk S0 (x_w (xinit s w2))).
  { cbn [x_w xinit]. eapply live_run; [exact E2|]. eapply live_run; [exact E1|apply durable_live]. }
  destruct (do_dacts_exec e (CMach (xinit s w2) S0) _ _ (xinit s w2) S0 _ _ _ Hv (ce_nil _ _) HS0 Hd)
    as (S' & H1 & H2).
  exists S'. split; [|exact H2]. exists (Mach w2 S0 s). split; [|exact H1]. exists w1, w2, s. splits; auto.
Qed.

Definition d_ins (i : N) : list dact :=
  map DAct (ACall i (OpInsert (sample_key i) (sample_val i)) :: times 6 (AThread i)).
Definition d_fetch (i : N) (n : nat) : list dact :=
  map DAct (ACall i (OpFetch (sample_key i)) :: times n (AThread i)).
Definition d_flush (n : nat) : list dact := times n (DAct AFlush).
(** Thread 1 inserts key 1, and a flush saves it.  Thread 2 inserts key 2, and a flush begins;
    it has written to the key file when thread 3 inserts key 3, thread 4 begins to fetch, and
    the machine stops ... *)
Definition dsample1 : list dact :=
  d_ins 1 ++ d_flush 20 ++ d_ins 2 ++ d_flush 16 ++ d_ins 3 ++ d_fetch 4 1.
(** ... after that key 1 is found and key 2 is not.  Thread 2 inserts it once more, and a
    flush begins, and is nearly through when the machine stops again; now key 2 is found, and
    key 3 is not. *)
Definition dsample2 : list dact :=
  dsample1 ++ [DHalt] ++ d_fetch 1 5 ++ d_fetch 2 4 ++ d_ins 2 ++ d_flush 19 ++ d_ins 3 ++ [DHalt] ++
  d_fetch 2 5 ++ d_fetch 3 4.

Definition ins_call (i : N) : dev := DEv (HCall i (OpInsert (sample_key i) (sample_val i))).
Definition fetch_call (i : N) : dev := DEv (HCall i (OpFetch (sample_key i))).
Definition dhist1 : list dev :=
  [ins_call 1; DEv (HRet 1 OInserted); DBegin; DEnd; ins_call 2; DEv (HRet 2 OInserted); DBegin;
   ins_call 3; DEv (HRet 3 OInserted); fetch_call 4].
Definition dhist2 : list dev :=
  dhist1 ++ [DStop; fetch_call 1; DEv (HRet 1 (OFound (sample_val 1))); fetch_call 2; DEv (HRet 2 ONotFound);
   ins_call 2; DEv (HRet 2 OInserted); DBegin; ins_call 3; DEv (HRet 3 OInserted); DStop;
   fetch_call 2; DEv (HRet 2 (OFound (sample_val 2))); fetch_call 3; DEv (HRet 3 ONotFound)].

Lemma dsample1_state : exists x S, durable_use sample_env sample_args dhist1 (CMach x S) /\ on_disk S (x_w x).
Proof.
  assert (X : match dafter sample_env sample_args dsample1 with
    | Some (h, x) => h = dhist1
    | None => False end) by (vm_compute; repeat split).
  destruct (dafter sample_env sample_args dsample1) as [[h x]|] eqn:E; [|contradiction].
  subst h. apply dafter_use in E; [|repeat constructor]. destruct E as (S & H1 & H2).
  exists x, S. auto.
Qed.
Lemma dsample2_state : exists c, durable_use sample_env sample_args dhist2 c.
Proof.
  assert (X : match dafter sample_env sample_args dsample2 with Some (h, _) => h = dhist2 | None => False end)
    by (vm_compute; repeat split).
  destruct (dafter sample_env sample_args dsample2) as [[h x]|] eqn:E; [|contradiction].
  subst h. apply dafter_use in E; [|repeat constructor]. destruct E as (S & H1 & _). eauto.
Qed.

(** ** C44 *)
(** C44.  Threads fetch and insert, the flush goes on beside them, and at any instant the
    machine may stop; what it finds on the disk is anything the operating system was free to
    leave there, and recovery may be stopped any number of times before the database is open
    again.  What is seen of all that is as if every call took effect in one instant, and
    every stop left either what the flushes that had ended had saved, or what was in the
    database when the flush that was going on began. *)
Theorem C44_durably_linearizable : forall e a h c,
  iter_ok e -> good_args a -> durable_use e a h c ->
  durably_linearizable h.
Proof.
  intros e a h c Hit Ha Hu.
  destruct (use_inv e a h c Ha Hit Hu) as (recs & T & A & m & d & o & f & H & _).
  exists m, d, o, f. exact H.
Qed.

Example C44_durably_linearizable_example :
  (exists c, durable_use sample_env sample_args dhist2 c) /\ durably_linearizable dhist2.
Proof.
  destruct dsample2_state as (c & Hc). split; [eauto|].
  exact (C44_durably_linearizable _ _ _ _ sample_env_ok sample_args_good Hc).
Qed.

(** C44: after a stop at any instant recover() and open() succeed, whatever is on the disk
    and however often recovery has been stopped. *)
Theorem C44_always_reopens : forall e a h c w1 w2,
  iter_ok e -> good_args a -> durable_use e a h c ->
  on_disk (cm_disk c) w1 -> interrupted log_in_order e w1 w2 ->
  (exists w3, run (recover e) w2 = (w3, Ok tt)) /\ exists w3 s3, run (store_open e) w2 = (w3, Ok s3).
Proof. intros e a h c w1 w2 Hit Ha Hu H1 H2. eapply use_reopens; eauto. Qed.

Example C44_always_reopens_example : exists c w1,
  durable_use sample_env sample_args dhist1 c /\ on_disk (cm_disk c) w1 /\
  interrupted log_in_order sample_env w1 w1.
Proof.
  destruct dsample1_state as (x & S & H1 & H2). exists (CMach x S), (x_w x). splits; auto. apply int_none.
Qed.

(** C44, spelt out: a key whose insert has been answered before a flush began that has ended
    is found with its value by every later fetch, after any number of stops. *)
Theorem C44_saved_survives : forall e a c t k v o u o' h1 h2 h3 h4 h5 h6 h7,
  let h := h1 ++ DEv (HCall t (OpInsert k v)) :: h2 ++ DEv (HRet t o) :: h3 ++ DBegin :: h4 ++ DEnd :: h5 ++
           DEv (HCall u (OpFetch k)) :: h6 ++ DEv (HRet u o') :: h7 in
  iter_ok e -> good_args a -> durable_use e a h c ->
  dquiet t h2 -> running h3 -> running h4 -> dquiet u h6 ->
  exists v', o' = OFound v' /\ (o = OInserted -> v' = v).
Proof.
  intros e a c t k v o u o' h1 h2 h3 h4 h5 h6 h7 h Hit Ha Hu Q2 Q3 Q4 Q6.
  eapply saved_then_fetch; [|exact Q2|exact Q3|exact Q4|exact Q6].
  exact (C44_durably_linearizable _ _ _ _ Hit Ha Hu).
Qed.

Example C44_saved_survives_example : exists c h5 h7,
  durable_use sample_env sample_args
    ([] ++ DEv (HCall 1 (OpInsert (sample_key 1) (sample_val 1))) :: [] ++ DEv (HRet 1 OInserted) :: [] ++ DBegin :: [] ++
     DEnd :: h5 ++ DEv (HCall 1 (OpFetch (sample_key 1))) :: [] ++ DEv (HRet 1 (OFound (sample_val 1))) :: h7) c /\
  In DStop h5.
Proof.
  destruct dsample2_state as (c & Hc). exists c, (skipn 4 dhist1 ++ [DStop]). eexists. split; [exact Hc|].
  apply in_or_app. right. left. auto.
Qed.

(** C44, continued: without a stop in between it is found even before it has been saved. *)
Theorem C44_found_until_stop : forall e a c t k v o u o' h1 h2 h3 h4 h5,
  let h := h1 ++ DEv (HCall t (OpInsert k v)) :: h2 ++ DEv (HRet t o) :: h3 ++
           DEv (HCall u (OpFetch k)) :: h4 ++ DEv (HRet u o') :: h5 in
  iter_ok e -> good_args a -> durable_use e a h c ->
  dquiet t h2 -> running h3 -> dquiet u h4 ->
  exists v', o' = OFound v' /\ (o = OInserted -> v' = v).
Proof.
  intros e a c t k v o u o' h1 h2 h3 h4 h5 h Hit Ha Hu Q2 Q3 Q4.
  eapply unsaved_then_fetch; [|exact Q2|exact Q3|exact Q4].
  exact (C44_durably_linearizable _ _ _ _ Hit Ha Hu).
Qed.

Definition dhist3 : list dev :=
  [ins_call 1; DEv (HRet 1 OInserted); DBegin; fetch_call 1; DEv (HRet 1 (OFound (sample_val 1)))].
Example C44_found_until_stop_example : exists c,
  durable_use sample_env sample_args
    ([] ++ DEv (HCall 1 (OpInsert (sample_key 1) (sample_val 1))) :: [] ++ DEv (HRet 1 OInserted) :: [DBegin] ++
     DEv (HCall 1 (OpFetch (sample_key 1))) :: [] ++ DEv (HRet 1 (OFound (sample_val 1))) :: []) c.
Proof.
  assert (X : match dafter sample_env sample_args (d_ins 1 ++ d_flush 3 ++ d_fetch 1 2) with
    | Some (h, _) => h = dhist3 | None => False end) by (vm_compute; repeat split).
  destruct (dafter sample_env sample_args _) as [[h x]|] eqn:E; [|contradiction].
  subst h. apply dafter_use in E; [|repeat constructor]. destruct E as (S & H1 & _). eexists. exact H1.
Qed.

(** C44: whatever a fetch of a key finds, before or after stops, has been given to an insert
    of that key before. *)
Theorem C44_no_invented_value : forall e a c t k v h1 h2 h3,
  let h := h1 ++ DEv (HCall t (OpFetch k)) :: h2 ++ DEv (HRet t (OFound v)) :: h3 in
  iter_ok e -> good_args a -> durable_use e a h c -> dquiet t h2 ->
  exists u, In (DEv (HCall u (OpInsert k v))) (h1 ++ h2).
Proof.
  intros e a c t k v h1 h2 h3 h Hit Ha Hu Hq. eapply durable_found; [|exact Hq].
  exact (C44_durably_linearizable _ _ _ _ Hit Ha Hu).
Qed.

Example C44_no_invented_value_example : exists c h1 h3,
  durable_use sample_env sample_args
    (h1 ++ DEv (HCall 2 (OpFetch (sample_key 2))) :: [] ++ DEv (HRet 2 (OFound (sample_val 2))) :: h3) c /\
  In DStop h1.
Proof.
  destruct dsample2_state as (c & Hc).
  exists c, (firstn 21 dhist2). eexists. split; [exact Hc|]. cbn. auto 20.
Qed.

Print Assumptions C44_durably_linearizable.
Print Assumptions C44_always_reopens.
Print Assumptions C44_saved_survives.
Print Assumptions C44_found_until_stop.
Print Assumptions C44_no_invented_value.
