(** C26: the lists of the background scheduler, in every interleaving of open(), close(),
    start(), run(), flush() and stop_all() on any number of stores and threads. *)
From Verif Require Import Model.Bytes Model.Context SpecContext Proofs.ContextFacts Proofs.ContextInv
  Proofs.ContextTheorems.

(** C26.  Each open store is in exactly one place: on the waiting list, on the flushing
    list, or in the hands of exactly one thread, which is flushing it. *)
Theorem C26_one_list : forall c, reachable c -> exists W F,
  holds_list (c_heap c) (c_waiting c) W /\ holds_list (c_heap c) (c_flushing c) F /\
  forall x, c_open c x = true ->
    (In x W /\ ~ In x F /\ (forall t r, c_th c t <> TBusy r x)) \/
    (In x F /\ ~ In x W /\ (forall t r, c_th c t <> TBusy r x)) \/
    (~ In x W /\ ~ In x F /\ exists t r, c_th c t = TBusy r x /\ forall u q, c_th c u = TBusy q x -> u = t).
Proof. exact one_place. Qed.

(** C26.  Conversely, what the context has in its lists or is flushing is a store that is
    open or whose close() has not returned. *)
Theorem C26_only_open : forall c, reachable c -> forall W F x,
  holds_list (c_heap c) (c_waiting c) W -> holds_list (c_heap c) (c_flushing c) F ->
  In x W \/ In x F \/ (exists t r, c_th c t = TBusy r x) ->
  c_open c x = true \/ exists t, c_th c t = TClose x \/ exists b, c_th c t = TWaitX x b.
Proof. exact nothing_else. Qed.

(** C26.  After the context has let go of a store in close(), it neither reads nor writes
    it any more: until the store is opened again its links and state are not changed, no
    flush of it begins or is under way, and it is on no list. *)
Theorem C26_closed_never_touched : forall c t x c1 ls c2,
  reachable c -> cstep c t (LClosed t x) c1 -> cexec c1 ls c2 ->
  (forall u, ~ In (LOpened u x) ls) ->
  c_heap c2 x = c_heap c1 x /\ (forall u, ~ In (LFlush u x) ls) /\ (forall u r, c_th c2 u <> TBusy r x) /\
  exists W F, holds_list (c_heap c2) (c_waiting c2) W /\ holds_list (c_heap c2) (c_flushing c2) F /\
    ~ In x W /\ ~ In x F.
Proof. exact closed_stays. Qed.

(** C26.  Every store that is waiting when the lists are moved (or is still to be flushed
    from before) has been flushed, or closed, by the time any thread finds that there is
    nothing left to flush. *)
Theorem C26_turn_flushed : forall c t c1 ls c2 u c3 x W F,
  reachable c -> holds_list (c_heap c) (c_waiting c) W -> holds_list (c_heap c) (c_flushing c) F ->
  In x W \/ In x F ->
  cstep c t LMove c1 -> cexec c1 ls c2 -> cstep c2 u (LDrained u) c3 ->
  exists v, In (LFlush v x) ls \/ In (LClosed v x) ls.
Proof. exact turn_taken. Qed.

(** C26.  Moving the lists always ends (they have no cycles). *)
Theorem C26_move_terminates : forall c, reachable c -> exists fuel c', move_all fuel c = Some c'.
Proof. exact move_terminates. Qed.

(** C26.  No wake-up is lost: a thread that sleeps in close() has its store in the hands of
    a flushing thread; a thread that sleeps in run() for something to flush has nothing to
    flush and is not asked to stop; a thread that sleeps in stop_all() has a thread in
    run() that has not left. *)
Theorem C26_no_lost_wakeup : forall c t, reachable c ->
  (forall x, c_th c t = TWaitX x false -> exists u r, c_th c u = TBusy r x) /\
  (c_th c t = TWaitF false false -> dl_head (c_flushing c) = None /\ c_stop c = false) /\
  (c_th c t = TWaitS false -> exists u, running (c_th c u) = true).
Proof. exact waits_rightly. Qed.

(** C26.  As long as stop_all() is never called, whenever some thread is in run() one of
    them is the one that moves waiting stores every second. *)
Theorem C26_someone_serves : forall ls c,
  cexec ctx0 ls c -> (forall u, ~ In (LCall u TStop) ls) -> 0 < c_num c ->
  exists t, is_first (c_th c t) = true.
Proof. exact first_serves. Qed.

Lemma wake_f_idle th u : th u = TIdle -> wake_f th u = TIdle.
Proof. unfold wake_f. intros ->. reflexivity. Qed.
Lemma wake_w_idle th u : th u = TIdle -> wake_w th u = TIdle.
Proof. unfold wake_w. intros ->. reflexivity. Qed.

(** Results of transitions as functions, so that examples can be computed. *)
Definition opened (c : ctx) (t x : N) : ctx :=
  let (h, l) := push_back (set_stt (c_heap c) x SWaiting) (c_waiting c) x in
  wakes (goto (set_open (set_lists c h l (c_flushing c)) x true) t TIdle) wake_w.
Definition taken (c : ctx) (t : N) (r : option bool) (x : N) : ctx :=
  let (h, l) := dl_erase (set_stt (c_heap c) x SIntermediate) (c_flushing c) x in
  goto (set_lists c h (c_waiting c) l) t (TBusy r x).
Definition put_back (c : ctx) (t : N) (r : option bool) (x : N) : ctx :=
  let (h, l) := push_back (set_stt (c_heap c) x SWaiting) (c_waiting c) x in
  wakes (goto (set_lists c h l (c_flushing c)) t (TLoop r)) wake_w.
Definition moved (c : ctx) : ctx := match move_all 10 c with Some c' => c' | None => c end.
Lemma s_opened c t x : c_th c t = TOpen x -> cstep c t (LOpened t x) (opened c t x).
Proof. intros H. unfold opened. destruct (push_back _ _ _) as [h l] eqn:E. eapply s_open; eauto. Qed.
Lemma s_taken c t r x : c_th c t = TLoop r -> dl_head (c_flushing c) = Some x -> cstep c t (LFlush t x) (taken c t r x).
Proof. intros H1 H2. unfold taken. destruct (dl_erase _ _ _) as [h l] eqn:E. eapply s_take; eauto. Qed.
Lemma s_put_back c t r x : c_th c t = TBusy r x -> cstep c t (LFlushed t x) (put_back c t r x).
Proof. intros H. unfold put_back. destruct (push_back _ _ _) as [h l] eqn:E. eapply s_put; eauto. Qed.
Lemma s_moved c t : c_th c t = TFlush -> c_stop c = false -> c_num c = 0 -> match move_all 10 c with Some _ => true | None => false end = true ->
  cstep c t LMove (goto (moved c) t (TLoop None)).
Proof.
  intros H1 H2 H3 H4. unfold moved. destruct (move_all 10 c) as [c'|] eqn:E; [|discriminate].
  eapply s_flush; eauto.
Qed.
Lemma opened_th c t x : c_th (opened c t x) = wake_w (upd (c_th c) t TIdle).
Proof. unfold opened. destruct (push_back _ _ _). reflexivity. Qed.
Lemma taken_th c t r x : c_th (taken c t r x) = upd (c_th c) t (TBusy r x).
Proof. unfold taken. destruct (dl_erase _ _ _). reflexivity. Qed.
Lemma put_back_th c t r x : c_th (put_back c t r x) = wake_w (upd (c_th c) t (TLoop r)).
Proof. unfold put_back. destruct (push_back _ _ _). reflexivity. Qed.
Lemma moved_th c : c_th (moved c) = c_th c.
Proof. unfold moved. destruct (move_all 10 c) eqn:E; auto. apply move_all_th in E as [-> _]. reflexivity. Qed.

(* One step of thread [t] by rule [k]; a fact about every thread, where only the given ones do anything. *)
Ltac tick t k := eapply (ce_step _ t); [eapply k; try (vm_compute; reflexivity); try (vm_compute; congruence)|cbv beta iota].
Ltac idle := cbn [c_th goto wakes set_num set_t set_stop set_open set_lists];
  repeat first [rewrite opened_th|rewrite taken_th|rewrite put_back_th|rewrite moved_th|
    progress cbn [c_th goto wakes set_num set_t set_stop set_open set_lists]|rewrite upd_other by assumption|apply wake_w_idle|apply wake_f_idle]; reflexivity.
Ltac each_thread u := destruct (N.eq_dec u 1); [subst|destruct (N.eq_dec u 2); [subst|destruct (N.eq_dec u 3);
  [subst|destruct (N.eq_dec u 4); [subst|destruct (N.eq_dec u 10); [subst|]]]]].
Ltac nobody := let u := fresh "u" in let H := fresh "H" in let b := fresh "b" in let E := fresh "E" in
  intros u; each_thread u; intros [H|[H|[b H]]]; revert H;
  first [match goal with |- c_th ?c ?u = _ -> _ => assert (E : c_th c u = TIdle) by idle; rewrite E; discriminate end
        |vm_compute; discriminate].

(** C26 refuted in part.  Calling stop_all() while another thread calls run() can leave the
    context with a thread in run() and an open store, and with nobody who ever moves it:
    whatever happens then, short of another stop_all(), no store is ever flushed again.
    (stop_all() finds num_threads_ = 0 and joins; the thread of start() enters run(), another
    one enters run() as the second, the first one leaves, stop_all() clears stop_.) *)
Theorem C26_scheduler_starved_refuted : exists c x,
  reachable c /\ c_open c x = true /\ 0 < c_num c /\ c_stop c = false /\
  forall ls c', cexec c ls c' -> (forall u, ~ In (LCall u TStop) ls) -> forall u y, ~ In (LFlush u y) ls.
Proof.
  assert (R : exists ls c, cexec ctx0 ls c /\ c_open c 7 = true /\ starved c).
  { eexists _, _. split; [|split].
    - tick 1 s_call; [exact (b_start _)|].
      tick 1 s_start; [instantiate (1 := 10); reflexivity|].
      tick 2 s_call; [exact (b_stop _)|].
      tick 2 s_stop.
      tick 2 s_stop_join.
      tick 10 s_run.
      tick 3 s_call; [exact (b_run _)|].
      tick 3 s_run.
      tick 10 s_top_stop.
      tick 10 s_leave.
      tick 2 s_join.
      tick 2 s_joined.
      tick 4 s_call; [apply (b_open _ 7); [reflexivity|nobody]|].
      tick 4 s_opened.
      apply ce_nil.
    - reflexivity.
    - split; [reflexivity|]. split; [|split; [reflexivity|split; [|split; [reflexivity|]]]].
      + intros u. each_thread u; first [reflexivity|apply (f_equal stopping (y := TIdle)); idle].
      + intros u. each_thread u; first [reflexivity|apply (f_equal is_first (y := TIdle)); idle].
      + intros u. each_thread u; try exact Logic.I.
        match goal with |- match ?x with _ => _ end => assert (E : x = TIdle) by idle; rewrite E end. exact Logic.I. }
  destruct R as (ls & c & R & O & S). exists c, 7.
  assert (Rc : reachable c) by (exists ls; exact R).
  split; [exact Rc|]. split; [exact O|]. destruct S as (S1 & S2 & S3 & S4). split; [exact S3|]. split; [exact S1|].
  intros ls' c' E. eapply starved_exec; [apply cinv_reachable; exact Rc| |exact E]. split; auto.
Qed.

(** A concrete run: two stores are opened, flush() begins to flush the first, whose close()
    has to wait; it is put back, taken off, and the other one is flushed. *)
Example C26_example_run : exists c, cexec ctx0
  [LCall 1 (TOpen 5); LOpened 1 5; LCall 1 (TOpen 6); LOpened 1 6; LCall 2 TFlush; LMove; LFlush 2 5;
   LCall 1 (TClose 5); LTau; LFlushed 2 5; LClosed 1 5; LFlush 2 6; LFlushed 2 6; LDrained 2] c /\
  c_open c 5 = false /\ c_open c 6 = true /\ holds_list (c_heap c) (c_waiting c) [6] /\
  holds_list (c_heap c) (c_flushing c) [].
Proof.
  eexists. split; [|split; [|split; [|split]]].
  - tick 1 s_call; [apply (b_open _ 5); [reflexivity|nobody]|].
    tick 1 s_opened.
    tick 1 s_call; [apply (b_open _ 6); [reflexivity|nobody]|].
    tick 1 s_opened.
    tick 2 s_call; [exact (b_flush _)|].
    tick 2 s_moved.
    tick 2 s_taken.
    tick 1 s_call; [apply (b_close _ 5); [reflexivity|nobody]|].
    tick 1 s_close_wait.
    tick 2 s_put_back.
    tick 1 s_close_now.
    tick 2 s_taken.
    tick 2 s_put_back.
    tick 2 s_drained.
    apply ce_nil.
  - reflexivity.
  - reflexivity.
  - repeat split; repeat constructor; simpl; auto.
  - repeat split; repeat constructor.
Qed.

(** A state in which close() sleeps: the hypotheses of [C26_no_lost_wakeup] occur. *)
Example C26_example_sleep : exists c, reachable c /\ c_th c 1 = TWaitX 5 false /\ c_th c 2 = TBusy None 5 /\
  c_open c 6 = true.
Proof.
  eexists. split; [eexists|].
  - tick 1 s_call; [apply (b_open _ 5); [reflexivity|nobody]|].
    tick 1 s_opened.
    tick 1 s_call; [apply (b_open _ 6); [reflexivity|nobody]|].
    tick 1 s_opened.
    tick 2 s_call; [exact (b_flush _)|].
    tick 2 s_moved.
    tick 2 s_taken.
    tick 1 s_call; [apply (b_close _ 5); [reflexivity|nobody]|].
    tick 1 s_close_wait.
    apply ce_nil.
  - repeat split; reflexivity.
Qed.

Print Assumptions C26_one_list.
Print Assumptions C26_only_open.
Print Assumptions C26_closed_never_touched.
Print Assumptions C26_turn_flushed.
Print Assumptions C26_move_terminates.
Print Assumptions C26_no_lost_wakeup.
Print Assumptions C26_someone_serves.
Print Assumptions C26_scheduler_starved_refuted.
