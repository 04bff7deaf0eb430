(** C69: callbacks of fetch() that use the store themselves. *)
From Verif Require Import Model.Bytes Model.Concurrent Model.Reentry SpecReentry Proofs.ReentryFacts.

(** Threads may call fetch(), insert() and set_burst() while others flush, and callbacks that
    are given a value from the files may do so too, to any depth: from every state that can be
    reached all calls can still return. *)
Theorem C69_calm_never_hangs : forall progs y,
  Forall (Forall calm_job) progs -> reaches (start progs) y ->
  exists y', reaches y y' /\ finished y'.
Proof. exact calm_finish. Qed.

(** But a callback that is given a value still in memory (a pool, or a bucket in the cache) and
    stores a new key or calls set_burst() never returns, whatever the other threads do. *)
Theorem C69_insert_refuted : forall progs i before p cs c cs' after,
  nth_error progs i = Some (before ++ JCall (Fetch p (Some (cs ++ c :: cs'))) :: after) ->
  p <> InFile -> changes c ->
  forall y, reaches (start progs) y -> exists t, nth_error (y_th y) i = Some t /\ t_todo t <> [].
Proof. exact change_hangs. Qed.

(** And such a callback that only fetches can hang for ever, together with the thread that
    flushes: no other thread is needed. *)
Theorem C69_fetch_refuted : forall p q cb cs b, p <> InFile ->
  exists y, reaches (start [[JCall (Fetch p (Some (Fetch q cb :: cs)))]; [JFlush b]]) y /\
    forall y', reaches y y' -> ~ finished y'.
Proof. exact nested_hangs. Qed.

(** ** Cases *)

(** A callback given a value from the files copies it under a new key, and fetches it. *)
Definition copies : call := Fetch InFile (Some [Insert InFile true; Fetch InPool (Some [])]).
Definition sample : list (list job) := [[JCall copies; JCall SetBurst]; [JCall (Insert InCache true)]; [JFlush true; JFlush false]].
Example calm_sample : Forall (Forall calm_job) sample.
Proof. repeat constructor. Qed.

(** Thread [i] moves, and then the others in the list; a thread that has to wait is passed over. *)
Fixpoint run (l : list nat) (y : sys) : sys :=
  match l with [] => y | i :: l' => run l' (match step i y with Some y' => y' | None => y end) end.
Lemma run_reaches l : forall y, reaches y (run l y).
Proof.
  induction l as [|i l IH]; intros y; [constructor|]. cbn [run]. destruct (step i y) as [y'|] eqn:E; [|apply IH].
  econstructor; eauto.
Qed.
(** The callback holds a generation while a flush waits for it: the callback goes on. *)
Example waits_for_callback : exists y, reaches (start sample) y /\ step 2 y = None /\ step 0 y <> None /\ g_prev (y_g y) = 1.
Proof.
  exists (run [0; 0; 0; 2; 2; 2; 2; 2]%nat (start sample)). split; [apply run_reaches|]. vm_compute.
  split; [reflexivity|]. split; [discriminate|reflexivity].
Qed.
Example sample_finishes : exists y, reaches (start sample) y /\ finished y.
Proof. apply (C69_calm_never_hangs sample (start sample) calm_sample). constructor. Qed.
(** Round robin ends: all have returned and all locks are free. *)
Example sample_run : let y := run (flat_map (fun _ => [0; 1; 2]%nat) (seq 0 30)) (start sample) in
  (map t_todo (y_th y), y_ex y, y_sh y, y_u y, g_cur (y_g y), g_prev (y_g y)) = ([[]; []; []], false, 0, false, 0, 0).
Proof. vm_compute. reflexivity. Qed.

(** Copying a value that has not been flushed yet hangs. *)
Example copy_hangs : forall y, reaches (start [[JCall (Fetch InPool (Some [Insert InFile true]))]]) y -> ~ finished y.
Proof.
  intros y R F. destruct (C69_insert_refuted [[JCall (Fetch InPool (Some [Insert InFile true]))]] 0%nat [] InPool [] (Insert InFile true) [] [] eq_refl ltac:(discriminate) Logic.I y R)
    as (t & Ht & Nt). unfold finished in F. rewrite Forall_forall in F. apply Nt, F. eapply nth_error_In. exact Ht.
Qed.
(** Fetching in the callback can end well, when no flush comes between. *)
Example nested_may_end : let y := run [0; 0; 0; 0; 1; 1]%nat (start [[JCall (Fetch InPool (Some [Fetch InPool None]))]; [JFlush false]]) in
  map t_todo (y_th y) = [[]; []].
Proof. vm_compute. reflexivity. Qed.

Print Assumptions C69_calm_never_hangs.
Print Assumptions C69_insert_refuted.
Print Assumptions C69_fetch_refuted.
