(** C46: the store used by several threads, on a machine that may stop at any moment and whose
    file operations may fail. *)
From Verif Require Import Model.Bytes Model.Err Model.Format Model.IO Model.Bucket Model.Pool Model.Recover
  Model.Create Model.Store Spec SpecLin SpecDurable SpecFail Model.History Model.Crash Model.Events Model.Concurrent
  Model.ConcCrash Model.ConcFail Proofs.BytesFacts Proofs.StoreInv Proofs.LifeFacts Proofs.SafeFacts Proofs.EventFacts
  Proofs.LinFacts Proofs.ConcDurable Proofs.ConcFailRun Proofs.ConcFailAfter Proofs.FailHist Props.Samples
  Props.ConcurrentProps Props.DurableProps.

(** ** A concrete execution, to show that hypotheses can be met *)
Inductive fact :=
  GCall (t : N) (c : op) | GPass (t : N) | GRefuse (t : N) | GThread (t : N) | GThreadFails (t : N)
| GFlush | GFlushFails (n : N) | GFlushError | GAgain | GHalt.

(** What the executor leaves when an operation of the flush fails: nothing has been done, or
    the first [n] bytes have been written to the log file. *)
Definition left_by (n : N) (o : io) (w : world) : option world :=
  match o with
  | IoSync _ | IoRead _ _ _ => Some w
  | IoWrite FLog ap off d =>
    match wget w FLog with
    | Some x => if ap && negb (off =? blen x) then Some w else Some (wset w FLog (Some (bwrite off (btake n d) x)))
    | None => None
    end
  | _ => None
  end.
Lemma left_by_failed n o w w' : left_by n o w = Some w' -> failed log_in_order o w w'.
Proof.
  destruct o as [f|f|f|f|f off m|f ap off d|f|f m]; cbn [left_by failed]; try discriminate; try congruence.
  destruct f; try discriminate. destruct (wget w FLog) as [x|]; [|discriminate].
  destruct (ap && negb (off =? blen x)); [congruence|]. intros E. injection E as <-. eexists. split; [reflexivity|]. cbn [log_in_order]. right. eauto.
Qed.

Record fexe := FExe { ex_x : xst; ex_ec : option err; ex_ck : N -> bool }.

Definition do_fact (e : env) (ks : N) (s : fexe) (a : fact) : option (list fev * fexe) :=
  let (x, ec, ck) := s in
  match a with
  | GCall t c =>
    match x_th x t, call_state c with
    | CIdle, Some s' =>
      if kh_key_size (st_kh (x_s x)) =? ks
      then Some ([FDev (DEv (HCall t c))], FExe (goto x t s') ec (bset ck t false)) else None
    | _, _ => None
    end
  | GPass t =>
    match ec with
    | None => if at_entry (x_th x t) && negb (ck t) then Some ([], FExe x None (bset ck t true)) else None
    | Some _ => None
    end
  | GRefuse t =>
    match ec with
    | Some er =>
      if at_entry (x_th x t) && negb (ck t)
      then Some ([], FExe (goto x t (CRet (refused_out (x_th x t) er))) (Some er) ck) else None
    | None => None
    end
  | GThread t =>
    if negb (at_entry (x_th x t)) || ck t then
      match thread_step e x t with
      | Some (h, x') => Some (map (fun v => FDev (DEv v)) h, FExe x' ec ck)
      | None => None
      end
    else None
  | GThreadFails t =>
    match thread_io (x_th x t), thread_io (thread_failed (x_th x t) (EIO 5)) with
    | Some _, None =>
      match thread_step e (goto x t (thread_failed (x_th x t) (EIO 5))) t with
      | Some (h, x') => Some (FFail t :: map (fun v => FDev (DEv v)) h, FExe x' ec ck)
      | None => None
      end
    | _, _ => None
    end
  | GFlush =>
    match flush_step e x with
    | Some x' => Some (map FDev (flush_seen x x'), FExe x' ec ck)
    | None => None
    end
  | GFlushFails n =>
    match flush_io (x_fl x) with
    | Some o =>
      match left_by n o (x_w x) with
      | Some w' =>
        Some ([], FExe (set_fl (set_w x w') (flush_failed (x_fl x) (EIO 28))) ec ck)
      | None => None
      end
    | None => None
    end
  | GFlushError =>
    match ec, flush_error (x_fl x) with
    | None, Some (EIO n) => Some ([FErr], FExe x (Some (EIO n)) ck)
    | _, _ => None
    end
  | GAgain =>
    match ec with
    | Some er =>
      if (x_m x =? 0) && negb (pool_is_empty (st_p1 (x_s x)))
      then Some ([], FExe (set_s x (swap_pools (x_s x))) (Some er) ck) else None
    | None => None
    end
  | GHalt =>
    match run (store_open e) (x_w x) with
    | (w3, Ok s3) => Some ([FDev DStop], FExe (xinit s3 w3) None (fun _ => false))
    | _ => None
    end
  end.
Fixpoint do_facts (e : env) (ks : N) (s : fexe) (h : list fev) (l : list fact) : option (list fev * fexe) :=
  match l with
  | [] => Some (h, s)
  | a :: l' => match do_fact e ks s a with Some (h', s') => do_facts e ks s' (h ++ h') l' | None => None end
  end.
Definition facts_valid (ks : N) (l : list fact) : Prop :=
  Forall (fun a => match a with GCall _ c => valid_op ks c | _ => True end) l.

Definition fafter (e : env) (a : create_args) (acts : list fact) : option (list fev * fexe) :=
  match run (create e a) no_files with
  | (w1, Ok tt) =>
    match run (store_open e) w1 with
    | (w2, Ok s) => do_facts e (ca_key_size a) (FExe (xinit s w2) None (fun _ => false)) [] acts
    | _ => None
    end
  | _ => None
  end.

Definition f_ins (i : N) : list fact :=
  GCall i (OpInsert (sample_key i) (sample_val i)) :: GPass i :: times 6 (GThread i).
Definition f_fetch (i : N) (n : nat) : list fact :=
  GCall i (OpFetch (sample_key i)) :: GPass i :: times n (GThread i).
Definition f_flush (n : nat) : list fact := times n GFlush.

Lemma do_facts_exec e c0 ks l : forall x S ec ck h h' s',
  facts_valid ks l -> fmexec e c0 h (FMach x S ec ck) -> on_disk S (x_w x) ->
  do_facts e ks (FExe x ec ck) h l = Some (h', s') ->
  exists S', fmexec e c0 h' (FMach (ex_x s') S' (ex_ec s') (ex_ck s')) /\ on_disk S' (x_w (ex_x s')).
Proof.
  induction l as [|a l IH]; intros x S ec ck h h' s' Hv Hx Hdk Hd; cbn [do_facts] in Hd.
  - injection Hd as <- <-. eauto.
  - inversion Hv as [|? ? Ha Hl]; subst. destruct (do_fact e ks (FExe x ec ck) a) as [[h1 [x1 ec1 ck1]]|] eqn:E; [|discriminate].
    destruct a as [t c|t|t|t|t| |n| | |]; cbn [do_fact] in E.
    + destruct (x_th x t) eqn:Et; try discriminate. destruct (call_state c) eqn:Ec; [|discriminate].
      destruct (N.eqb_spec (kh_key_size (st_kh (x_s x))) ks) as [Ek|]; [|discriminate].
      injection E as <- <- <- <-. apply (IH _ S _ _ _ _ _ Hl) in Hd; auto. eapply fe_step; [exact Hx|].
      apply fs_call; auto. rewrite Ek. exact Ha.
    + destruct ec; [discriminate|]. destruct (at_entry (x_th x t) && negb (ck t)) eqn:Ea; [|discriminate].
      apply andb_prop in Ea as [E1 E2]. apply negb_true_iff in E2. injection E as <- <- <- <-.
      apply (IH _ S _ _ _ _ _ Hl) in Hd; auto. eapply fe_step; [exact Hx|]. apply fs_pass; auto.
    + destruct ec as [er|]; [|discriminate]. destruct (at_entry (x_th x t) && negb (ck t)) eqn:Ea; [|discriminate].
      apply andb_prop in Ea as [E1 E2]. apply negb_true_iff in E2. injection E as <- <- <- <-.
      apply (IH _ S _ _ _ _ _ Hl) in Hd; auto. eapply fe_step; [exact Hx|]. apply fs_refuse; auto.
    + destruct (negb (at_entry (x_th x t)) || ck t) eqn:Ea; [|discriminate].
      destruct (thread_step e x t) as [[h2 x2]|] eqn:Et; [|discriminate]. injection E as <- <- <- <-.
      eapply (IH _ _ _ _ _ _ _ Hl) in Hd; [exact Hd| |eapply thread_live; [exact Et|exact Hdk]].
      eapply fe_step; [exact Hx|]. apply fs_thread; [|exact Et]. apply orb_prop in Ea as [Ea|Ea]; auto.
      left. apply negb_true_iff. exact Ea.
    + destruct (thread_io (x_th x t)) as [o|] eqn:Eo; [|discriminate].
      destruct (thread_io (thread_failed (x_th x t) (EIO 5))) eqn:En; [discriminate|].
      destruct (thread_step e (goto x t (thread_failed (x_th x t) (EIO 5))) t) as [[h2 x2]|] eqn:Et; [|discriminate].
      injection E as <- <- <- <-. eapply (IH _ S _ _ _ _ _ Hl) in Hd; [exact Hd| |].
      * eapply fe_step; [exact Hx|]. eapply fs_thread_fails; [exact Eo|exact Et].
      * pose proof (thread_live _ _ _ _ _ S Et Hdk) as X. cbn [goto x_th x_w] in X. unfold tset in X.
        rewrite N.eqb_refl, En in X. exact X.
    + destruct (flush_step e x) eqn:Ef; [|discriminate].
      injection E as <- <- <- <-.
      eapply (IH _ _ _ _ _ _ _ Hl) in Hd; [exact Hd| |eapply flush_live; [exact Ef|exact Hdk]].
      eapply fe_step; [exact Hx|]. apply fs_flush. exact Ef.
    + destruct (flush_io (x_fl x)) as [o|] eqn:Eo; [|discriminate].
      destruct (left_by n o (x_w x)) as [w'|] eqn:El; [|discriminate].
      apply left_by_failed in El. injection E as <- <- <- <-.
      eapply (IH _ _ _ _ _ _ _ Hl) in Hd; [exact Hd| |cbn [set_fl set_w x_w]; apply live_failed; [exact Hdk|exact El]].
      eapply fe_step; [exact Hx|]. apply fs_flush_fails; auto.
    + destruct ec; [discriminate|]. destruct (flush_error (x_fl x)) as [er|] eqn:Ee; [|discriminate].
      destruct er; try discriminate E.
      injection E as <- <- <- <-. apply (IH _ S _ _ _ _ _ Hl) in Hd; auto. eapply fe_step; [exact Hx|].
      apply fs_flush_error; [exact Ee|discriminate].
    + destruct ec as [er|]; [|discriminate].
      destruct ((x_m x =? 0) && negb (pool_is_empty (st_p1 (x_s x)))) eqn:Ea; [|discriminate].
      apply andb_prop in Ea as [E1 E2]. apply negb_true_iff in E2. injection E as <- <- <- <-.
      apply (IH _ S _ _ _ _ _ Hl) in Hd; auto. eapply fe_step; [exact Hx|]. apply fs_flush_again; auto. lia.
    + destruct (run (store_open e) (x_w x)) as [w3 [s3|]] eqn:Er; [|discriminate].
      injection E as <- <- <- <-.
      eapply (IH _ _ _ _ _ _ _ Hl) in Hd; [exact Hd| |].
      * eapply fe_step; [exact Hx|]. eapply fs_stop; [exact Hdk|apply int_none|exact Er].
      * cbn [x_w xinit]. eapply live_run; [exact Er|apply durable_live].
Qed.
Lemma fafter_use e a acts h s : facts_valid (ca_key_size a) acts -> fafter e a acts = Some (h, s) ->
  exists S, failing_use e a h (FMach (ex_x s) S (ex_ec s) (ex_ck s)) /\ on_disk S (x_w (ex_x s)).
Proof.
  unfold fafter. destruct (run (create e a) no_files) as [w1 [[]|]] eqn:E1; [|discriminate].
  destruct (run (store_open e) w1) as [w2 [s0|]] eqn:E2; [|discriminate]. intros Hv Hd.
  set (S0 := srun log_in_order (store_open e) w1 (srun log_in_order (create e a) no_files (durable no_files))).
  assert (HS0 : on_disk S0 (x_w (xinit s0 w2))).
  { cbn [x_w xinit]. eapply live_run; [exact E2|]. eapply live_run; [exact E1|apply durable_live]. }
  destruct (do_facts_exec e (FMach (xinit s0 w2) S0 None (fun _ => false)) _ _ (xinit s0 w2) S0 _ _ _ _ _ Hv (fe_nil _ _) HS0 Hd)
    as (S' & H1 & H2).
  exists S'. split; [|exact H2]. exists (Mach w2 S0 s0). split; [|exact H1]. exists w1, w2, s0. splits; auto.
Qed.

(** Thread 1 inserts key 1, and a flush saves it.  Thread 2 inserts key 2, and a flush begins.
    A read fails for thread 1, which fetches key 1 and gets an error; thread 3 has begun to
    insert key 3.  The disk is full when the flush writes to the log file, of which 12 bytes
    more are there after that.  Thread 3 gets through, thread 4 does not ... *)
Definition fsample1 : list fact :=
  f_ins 1 ++ f_flush 20 ++ f_ins 2 ++ f_flush 10 ++ f_fetch 1 1 ++ [GThreadFails 1; GThread 1] ++ f_fetch 1 4 ++
  [GCall 3 (OpInsert (sample_key 3) (sample_val 3)); GPass 3] ++
  [GCall 4 (OpInsert (sample_key 4) (sample_val 4))] ++ [GFlushFails 12; GFlushError] ++
  times 6 (GThread 3) ++ [GRefuse 4; GThread 4] ++
  [GCall 1 (OpFetch (sample_key 1)); GRefuse 1; GThread 1; GAgain].
(** ... and after the machine has stopped and the database has been opened again, key 1 is
    found and keys 2 and 3, which had not been saved, are not; key 2 can be inserted again. *)
Definition fsample2 : list fact :=
  fsample1 ++ [GHalt] ++ f_fetch 1 5 ++ f_fetch 2 4 ++ f_fetch 3 4 ++ f_ins 2 ++ f_fetch 2 2.

Notation ret t r := (FDev (DEv (HRet t r))) (only parsing).
Definition f_icall (i : N) : fev := FDev (DEv (HCall i (OpInsert (sample_key i) (sample_val i)))).
Definition f_fcall (i : N) : fev := FDev (DEv (HCall i (OpFetch (sample_key i)))).
Definition fhist1 : list fev :=
  [f_icall 1; ret 1 OInserted; FDev DBegin; FDev DEnd; f_icall 2; ret 2 OInserted; FDev DBegin;
   f_fcall 1; FFail 1; ret 1 OOther; f_fcall 1; ret 1 (OFound (sample_val 1)); f_icall 3; f_icall 4; FErr;
   ret 3 OInserted; ret 4 OOther; f_fcall 1; ret 1 OOther].
Definition fhist2 : list fev :=
  fhist1 ++ [FDev DStop; f_fcall 1; ret 1 (OFound (sample_val 1)); f_fcall 2; ret 2 ONotFound; f_fcall 3; ret 3 ONotFound;
   f_icall 2; ret 2 OInserted; f_fcall 2; ret 2 (OFound (sample_val 2))].

Lemma fsample1_state : exists c, failing_use sample_env sample_args fhist1 c /\
  on_disk (fm_disk c) (x_w (fm_x c)).
Proof.
  assert (X : match fafter sample_env sample_args fsample1 with
    | Some (h, s) => h = fhist1
    | None => False end) by (vm_compute; repeat split).
  destruct (fafter sample_env sample_args fsample1) as [[h s]|] eqn:E; [|contradiction].
  subst h. apply fafter_use in E; [|repeat constructor]. destruct E as (S & H1 & H2).
  eexists. split; [exact H1|exact H2].
Qed.
Lemma fsample2_state : exists c, failing_use sample_env sample_args fhist2 c.
Proof.
  assert (X : match fafter sample_env sample_args fsample2 with Some (h, _) => h = fhist2 | None => False end)
    by (vm_compute; repeat split).
  destruct (fafter sample_env sample_args fsample2) as [[h s]|] eqn:E; [|contradiction].
  subst h. apply fafter_use in E; [|repeat constructor]. destruct E as (S & H1 & _). eauto.
Qed.

(** ** C46 *)
(** C46.  Threads fetch and insert and the flush goes on beside them, any of their file
    operations may fail and leave anything behind, and the machine may stop at any instant.
    What is seen of that is as if every call either took effect in one instant or was
    answered with an error and had no effect; errors are answered only to calls for which an
    operation has failed, and after a flush has failed; stops leave what has been saved, or
    what was in the database when the last flush began that has not ended. *)
Theorem C46_safely_linearizable : forall e a h c,
  iter_ok e -> good_args a -> failing_use e a h c ->
  safely_linearizable h.
Proof.
  intros e a h c Hit Ha Hu.
  destruct (fail_inv e a h c Ha Hit Hu) as (recs & T & A & m & d & o & f & H & _).
  eexists. exact H.
Qed.

Example C46_safely_linearizable_example :
  (exists c, failing_use sample_env sample_args fhist2 c) /\ safely_linearizable fhist2.
Proof.
  destruct fsample2_state as (c & Hc). split; [eauto|].
  exact (C46_safely_linearizable _ _ _ _ sample_env_ok sample_args_good Hc).
Qed.

(** C46: whatever has failed, recover() and open() succeed afterwards: on what a stop of the
    machine leaves on the disk, and on the files as they are when the process has ended. *)
Theorem C46_always_reopens : forall e a h c w1 w2,
  iter_ok e -> good_args a -> failing_use e a h c ->
  on_disk (fm_disk c) w1 \/ w1 = x_w (fm_x c) -> interrupted log_in_order e w1 w2 ->
  (exists w3, run (recover e) w2 = (w3, Ok tt)) /\ exists w3 s3, run (store_open e) w2 = (w3, Ok s3).
Proof.
  intros e a h c w1 w2 Hit Ha Hu Hd Hint. destruct (good_args_ok a Ha) as (Hp & _).
  destruct (fail_inv _ _ _ _ Ha Hit Hu) as (recs & T & A & m & d & o & f & _ & [Hk _ _ Hl]).
  assert (Hd' : on_disk (fm_disk c) w1) by (destruct Hd as [Hd| ->]; auto).
  destruct (stop_found e (dbp_of a) _ Hp Hit _ _ _ _ _ _ _ _ _ _ _ _ Hk Hd' Hint) as (r2 & T2 & d2 & [R1 R2 _ _] & _).
  split; eauto.
Qed.

Example C46_always_reopens_example : exists c,
  failing_use sample_env sample_args fhist1 c /\ on_disk (fm_disk c) (x_w (fm_x c)) /\
  interrupted log_in_order sample_env (x_w (fm_x c)) (x_w (fm_x c)).
Proof. destruct fsample1_state as (c & H1 & H2). exists c. splits; auto. apply int_none. Qed.

(** C46: after a flush has failed, calls that are made before the database is opened again are
    answered with an error. *)
Theorem C46_refused_after_error : forall e a c t call r h1 h2 h3 h4,
  let h := h1 ++ FErr :: h2 ++ FDev (DEv (HCall t call)) :: h3 ++ FDev (DEv (HRet t r)) :: h4 in
  iter_ok e -> good_args a -> failing_use e a h c ->
  stop_free h2 -> fquiet t h3 -> r = OOther.
Proof. intros. eapply refused_after; eauto. Qed.

Example C46_refused_after_error_example : exists c h1 h2,
  failing_use sample_env sample_args
    (h1 ++ FErr :: h2 ++ FDev (DEv (HCall 1 (OpFetch (sample_key 1)))) :: [] ++ FDev (DEv (HRet 1 OOther)) :: []) c /\
  stop_free h2.
Proof.
  destruct fsample1_state as (c & H1 & _). exists c, (firstn 14 fhist1), [ret 3 OInserted; ret 4 OOther].
  split; [exact H1|]. intros [E|[E|[]]]; discriminate.
Qed.

(** C46, spelt out: a key whose insert has been answered without error, before a flush began
    that has ended, is found with its value by every later fetch that is not answered with an
    error, after any number of stops. *)
Theorem C46_saved_survives : forall e a c t k v r u r' h1 h2 h3 h4 h5 h6 h7,
  let h := h1 ++ FDev (DEv (HCall t (OpInsert k v))) :: h2 ++ FDev (DEv (HRet t r)) :: h3 ++ FDev DBegin :: h4 ++
           FDev DEnd :: h5 ++ FDev (DEv (HCall u (OpFetch k))) :: h6 ++ FDev (DEv (HRet u r')) :: h7 in
  iter_ok e -> good_args a -> failing_use e a h c ->
  fquiet t h2 -> stop_free h3 -> stop_free h4 -> fquiet u h6 -> r <> OOther -> r' <> OOther ->
  exists v', r' = OFound v' /\ (r = OInserted -> v' = v).
Proof.
  intros e a c t k v r u r' h1 h2 h3 h4 h5 h6 h7 h Hit Ha Hu Q2 Q3 Q4 Q6 Hr Hr'.
  eapply saved_found; [|exact Q2|exact Q3|exact Q4|exact Q6|exact Hr|exact Hr'].
  exact (C46_safely_linearizable _ _ _ _ Hit Ha Hu).
Qed.

Example C46_saved_survives_example : exists c h5 h7,
  failing_use sample_env sample_args
    ([] ++ FDev (DEv (HCall 1 (OpInsert (sample_key 1) (sample_val 1)))) :: [] ++ FDev (DEv (HRet 1 OInserted)) :: [] ++
     FDev DBegin :: [] ++ FDev DEnd :: h5 ++ FDev (DEv (HCall 1 (OpFetch (sample_key 1)))) :: [] ++
     FDev (DEv (HRet 1 (OFound (sample_val 1)))) :: h7) c /\
  In FErr h5 /\ In (FDev DStop) h5.
Proof.
  destruct fsample2_state as (c & Hc). exists c, (skipn 4 fhist1 ++ [FDev DStop]). eexists. split; [exact Hc|].
  split; apply in_or_app; [left; cbn; auto 20|right; left; auto].
Qed.

(** C46, continued: without a stop in between it is found even before it has been saved, also
    by the calls that get through after a flush has failed. *)
Theorem C46_found_until_stop : forall e a c t k v r u r' h1 h2 h3 h4 h5,
  let h := h1 ++ FDev (DEv (HCall t (OpInsert k v))) :: h2 ++ FDev (DEv (HRet t r)) :: h3 ++
           FDev (DEv (HCall u (OpFetch k))) :: h4 ++ FDev (DEv (HRet u r')) :: h5 in
  iter_ok e -> good_args a -> failing_use e a h c ->
  fquiet t h2 -> stop_free h3 -> fquiet u h4 -> r <> OOther -> r' <> OOther ->
  exists v', r' = OFound v' /\ (r = OInserted -> v' = v).
Proof.
  intros e a c t k v r u r' h1 h2 h3 h4 h5 h Hit Ha Hu Q2 Q3 Q4 Hr Hr'.
  eapply unsaved_found; [|exact Q2|exact Q3|exact Q4|exact Hr|exact Hr'].
  exact (C46_safely_linearizable _ _ _ _ Hit Ha Hu).
Qed.

Example C46_found_until_stop_example : exists c h3 h5,
  failing_use sample_env sample_args
    ([] ++ FDev (DEv (HCall 1 (OpInsert (sample_key 1) (sample_val 1)))) :: [] ++ FDev (DEv (HRet 1 OInserted)) :: h3 ++
     FDev (DEv (HCall 1 (OpFetch (sample_key 1)))) :: [] ++ FDev (DEv (HRet 1 (OFound (sample_val 1)))) :: h5) c /\
  stop_free h3 /\ In (FFail 1) h3.
Proof.
  destruct fsample2_state as (c & Hc). exists c, (skipn 2 (firstn 10 fhist1)). eexists. split; [exact Hc|].
  split; [|cbn; auto 20]. unfold stop_free. cbn. intuition discriminate.
Qed.

(** C46: a call is answered with an error only if a file operation has failed that was made
    for it, or a flush has failed since the database was opened. *)
Theorem C46_no_error_without_cause : forall e a c t call h1 h2 h3,
  let h := h1 ++ FDev (DEv (HCall t call)) :: h2 ++ FDev (DEv (HRet t OOther)) :: h3 in
  iter_ok e -> good_args a -> failing_use e a h c -> fquiet t h2 ->
  In (FFail t) h2 \/
  exists h4 h5, h1 ++ FDev (DEv (HCall t call)) :: h2 = h4 ++ FErr :: h5 /\ stop_free h5.
Proof.
  intros e a c t call h1 h2 h3 h Hit Ha Hu Q. eapply error_cause; [|exact Q].
  exact (C46_safely_linearizable _ _ _ _ Hit Ha Hu).
Qed.

Example C46_no_error_without_cause_example : exists c h1 h3,
  failing_use sample_env sample_args
    (h1 ++ FDev (DEv (HCall 1 (OpFetch (sample_key 1)))) :: [FFail 1] ++ FDev (DEv (HRet 1 OOther)) :: h3) c.
Proof.
  destruct fsample1_state as (c & H1 & _). exists c, (firstn 7 fhist1). eexists. exact H1.
Qed.

(** C46: a call that is answered with an error leaves nothing behind: a value that is found,
    then or later, before or after stops, was given to an insert that had not been answered
    otherwise than with success. *)
Theorem C46_failed_insert_leaves_nothing : forall e a c t k v h1 h2 h3,
  let h := h1 ++ FDev (DEv (HCall t (OpFetch k))) :: h2 ++ FDev (DEv (HRet t (OFound v))) :: h3 in
  iter_ok e -> good_args a -> failing_use e a h c -> fquiet t h2 ->
  exists u h4 h5, h1 ++ FDev (DEv (HCall t (OpFetch k))) :: h2 = h4 ++ FDev (DEv (HCall u (OpInsert k v))) :: h5 /\
    forall h6 r h7, h5 ++ FDev (DEv (HRet t (OFound v))) :: h3 = h6 ++ FDev (DEv (HRet u r)) :: h7 -> fquiet u h6 ->
    r = OInserted.
Proof.
  intros e a c t k v h1 h2 h3 h Hit Ha Hu Q. eapply found_took; [|exact Q].
  exact (C46_safely_linearizable _ _ _ _ Hit Ha Hu).
Qed.

Example C46_failed_insert_leaves_nothing_example : exists c h1 h3,
  failing_use sample_env sample_args
    (h1 ++ FDev (DEv (HCall 2 (OpFetch (sample_key 2)))) :: [] ++ FDev (DEv (HRet 2 (OFound (sample_val 2)))) :: h3) c /\
  In (FDev DStop) h1.
Proof.
  destruct fsample2_state as (c & Hc). exists c, (firstn 28 fhist2). eexists. split; [exact Hc|]. cbn. auto 30.
Qed.

Print Assumptions C46_safely_linearizable.
Print Assumptions C46_always_reopens.
Print Assumptions C46_refused_after_error.
Print Assumptions C46_saved_survives.
Print Assumptions C46_found_until_stop.
Print Assumptions C46_no_error_without_cause.
Print Assumptions C46_failed_insert_leaves_nothing.
