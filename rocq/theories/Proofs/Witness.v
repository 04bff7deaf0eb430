(** Computing concrete histories, used only to show that hypotheses can be met. *)
From Verif Require Import Model.Bytes Model.Err Model.Field Model.Format Model.IO Model.BulkIO
  Model.Bucket Model.Pool Model.Recover Model.Create Model.Store Model.History Model.Crash Model.Events
  Spec SpecCrash
  Proofs.BytesFacts Proofs.IOFacts Proofs.SafeFacts Proofs.EventFacts Proofs.FailFacts.

(** The program and the files after [n] operations. *)
Fixpoint after_ops {A} (n : nat) (p : prog A) (w : world) : option (prog A * world) :=
  match n with
  | O => Some (p, w)
  | S n' =>
    match p with
    | Ret _ => None
    | Do o k => after_ops n' (k (snd (exec o w))) (fst (exec o w))
    end
  end.

Lemma after_steps ordf {A} n : forall (p : prog A) w p' w' S, after_ops n p w = Some (p', w') ->
  exists S', steps ordf p w S p' w' S'.
Proof.
  induction n as [|n IH]; intros p w p' w' S H; simpl in H.
  - injection H as <- <-. exists S. constructor.
  - destruct p as [a|o k]; [discriminate|]. destruct (IH _ _ _ _ (sexec ordf o w S) H) as (S' & H').
    exists S'. constructor. exact H'.
Qed.

Lemma crash_after ordf {A} n (p : prog A) w S p' w' :
  after_ops n p w = Some (p', w') -> on_disk S w -> crash ordf p w S w'.
Proof.
  intros H Hd. destruct (after_steps ordf n p w p' w' S H) as (S' & Hs).
  exists p', w', S'. split; auto. eapply live_steps; eauto.
Qed.

(** Stopped while writing. *)
Lemma crash_writing ordf {A} n (p : prog A) w S f ap off d k w1 x x' :
  after_ops n p w = Some (Do (IoWrite f ap off d) k, w1) -> on_disk S w ->
  ordf f = false -> wget w1 f = Some x -> ap && negb (off =? blen x) = false ->
  torn_write off (blen d) x x' -> crash ordf p w S (wset w1 f (Some x')).
Proof.
  intros H Hd Ho Hx Hap Ht. destruct (after_steps ordf n p w _ w1 S H) as (S1 & Hs).
  pose proof (live_steps ordf _ _ _ _ _ _ Hs Hd) as Hd1.
  exists (k (snd (exec (IoWrite f ap off d) w1))), (fst (exec (IoWrite f ap off d) w1)),
    (sexec ordf (IoWrite f ap off d) w1 S1).
  split.
  - clear - Hs. remember (Do (IoWrite f ap off d) k) as q eqn:Eq.
    induction Hs as [p w S|o k0 w S p' w' S' Hs IH]; [|constructor; auto].
    subst p. constructor. constructor.
  - cbn [sexec]. rewrite Hx, Hap, Ho. intros g. unfold sset. destruct (fname_eqb f g) eqn:E.
    + assert (f = g) by (destruct f, g; simpl in E; congruence). subst g. rewrite wget_wset_same. right.
      exists x, x'. splits; auto. rewrite <- Hx. apply Hd1.
    + rewrite wget_wset_other by (intros ->; destruct g; discriminate E). apply Hd1.
Qed.

(** A call, or a call stopped after [n] operations followed by recoveries stopped
    after some operations each. *)
Inductive act := ACall (c : op) | AStop (c : op) (n : nat) (ms : list nat).
Definition act_event (a : act) : event := match a with ACall c => Call c | AStop c _ _ => Stop c end.

Fixpoint recoveries (e : env) (ms : list nat) (w : world) : option world :=
  match ms with
  | [] => Some w
  | m :: ms => match after_ops m (recover e) w with Some (_, w') => recoveries e ms w' | None => None end
  end.
Lemma recoveries_interrupted e ms : forall w w', recoveries e ms w = Some w' -> interrupted ord e w w'.
Proof.
  induction ms as [|m ms IH]; intros w w' H; simpl in H.
  - injection H as <-. constructor.
  - destruct (after_ops m (recover e) w) as [[q w1]|] eqn:E; [|discriminate].
    eapply int_recover; [eapply crash_after; [exact E|apply durable_live]|auto].
Qed.

Definition do_act (e : env) (w : world) (s : store) (a : act) : option (world * store * list out) :=
  match a with
  | ACall c =>
    match run (op_prog e s c) w with
    | (w', (Some s', OAborted)) => None
    | (w', (Some s', o)) => Some (w', s', [o])
    | _ => None
    end
  | AStop c n ms =>
    match after_ops n (op_prog e s c) w with
    | Some (_, w1) =>
      match recoveries e ms w1 with
      | Some w2 => match run (store_open e) w2 with (w3, Ok s3) => Some (w3, s3, []) | _ => None end
      | None => None
      end
    | None => None
    end
  end.

Lemma do_act_happens e w s a w' s' o S : on_disk S w -> do_act e w s a = Some (w', s', o) ->
  exists S', happens e (Mach w S s) (act_event a) o (Mach w' S' s') /\ on_disk S' w'.
Proof.
  intros Hd H. destruct a as [c|c n ms]; unfold do_act in H; cbn [act_event].
  - destruct (run (op_prog e s c) w) as [w0 [[s0|] o0]] eqn:E; [|discriminate].
    assert (o0 <> OAborted /\ w' = w0 /\ s' = s0 /\ o = [o0]) as (Ho & -> & -> & ->).
    { destruct o0; try discriminate H; injection H as -> -> <-; splits; auto; discriminate. }
    eexists. split; [apply hp_call; eauto|]. eapply live_run; eauto.
  - destruct (after_ops n (op_prog e s c) w) as [[q w1]|] eqn:E1; [|discriminate].
    destruct (recoveries e ms w1) as [w2|] eqn:E2; [|discriminate].
    destruct (run (store_open e) w2) as [w3 [s3|]] eqn:E3; [|discriminate]. injection H as -> -> <-.
    eexists. split; [eapply hp_stop; eauto|].
    + eapply crash_after; eauto.
    + eapply recoveries_interrupted; eauto.
    + eapply live_run; [exact E3|apply durable_live].
Qed.

Fixpoint do_acts (e : env) (w : world) (s : store) (l : list act) : option (world * store * list out) :=
  match l with
  | [] => Some (w, s, [])
  | a :: l =>
    match do_act e w s a with
    | Some (w', s', o) =>
      match do_acts e w' s' l with Some (w'', s'', os) => Some (w'', s'', o ++ os) | None => None end
    | None => None
    end
  end.
Lemma do_acts_happened e l : forall w s w' s' os S, on_disk S w -> do_acts e w s l = Some (w', s', os) ->
  exists S', happened e (Mach w S s) (map act_event l) os (Mach w' S' s') /\ on_disk S' w'.
Proof.
  induction l as [|a l IH]; intros w s w' s' os S Hd H; simpl in H.
  - injection H as <- <- <-. exists S. split; [constructor|auto].
  - destruct (do_act e w s a) as [[[w1 s1] o]|] eqn:E1; [|discriminate].
    destruct (do_acts e w1 s1 l) as [[[w2 s2] os2]|] eqn:E2; [|discriminate]. injection H as <- <- <-.
    destruct (do_act_happens _ _ _ _ _ _ _ S Hd E1) as (S1 & H1 & Hd1).
    destruct (IH _ _ _ _ _ S1 Hd1 E2) as (S2' & H2 & Hd2). exists S2'. split; auto.
    simpl. econstructor; eauto.
Qed.

(** From create() on. *)
Definition history (e : env) (a : create_args) (l : list act) : option (world * store * list out) :=
  match run (create e a) no_files with
  | (w1, Ok _) =>
    match run (store_open e) w1 with (w2, Ok s) => do_acts e w2 s l | _ => None end
  | _ => None
  end.
Lemma history_happened e a l w s os : history e a l = Some (w, s, os) ->
  exists M0 S, started e a M0 /\ happened e M0 (map act_event l) os (Mach w S s) /\ on_disk S w.
Proof.
  unfold history. destruct (run (create e a) no_files) as [w1 [[]|]] eqn:E1; [|discriminate].
  destruct (run (store_open e) w1) as [w2 [s0|]] eqn:E2; [|discriminate]. intros H.
  pose proof (live_run ord _ _ (durable no_files) _ _ E1 (durable_live _)) as D1.
  pose proof (live_run ord _ _ _ _ _ E2 D1) as D2.
  destruct (do_acts_happened _ _ _ _ _ _ _ _ D2 H) as (S & HH & HD).
  eexists _, S. splits; [|exact HH|exact HD]. unfold started. do 3 eexists. splits; eauto.
Qed.
