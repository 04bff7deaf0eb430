(** C48, C49: generation counting mutex and its locks. *)
From Verif Require Import Model.Bytes SpecGen Model.Gentex Proofs.BytesFacts Proofs.GentexFacts.

(** ** Concrete executions *)
(** Threads 1 and 2 get the lock, thread 9 starts a generation and waits; thread 3 gets the
    lock and keeps it; threads 2 and 1 give it back, thread 9 is woken and returns. *)
Definition gsample1 : list gev := [ELock 1; ELock 2; EStart 9; ELock 3; EUnlock 2].
Definition gsample2 : list gev := gsample1 ++ [EUnlock 1].

Lemma gsample1_state : exists x, gexec gsample1 x /\ gs_th x 9 = GWait /\ gs_g x = Gcnt 1 1 1 /\ gs_th x 1 = GHolds 0 /\
  gs_th x 3 = GHolds 1.
Proof.
  pose proof (gx_step [] _ [ELock 1] _ gx_nil (gt_lock _ _ 1 eq_refl)) as X1.
  match type of X1 with gexec _ (Gst ?g ?f) => pose proof (gx_step _ _ [ELock 2] _ X1 (gt_lock g f 2 eq_refl)) as X2 end.
  match type of X2 with gexec _ (Gst ?g ?f) => pose proof (gx_step _ _ [EStart 9] _ X2 (gt_start g f 9 eq_refl)) as X3 end.
  match type of X3 with gexec _ (Gst ?g ?f) => pose proof (gx_step _ _ [ELock 3] _ X3 (gt_lock g f 3 eq_refl)) as X4 end.
  match type of X4 with gexec _ (Gst ?g ?f) => pose proof (gx_step _ _ [] _ X4 (gt_finish g f 9 eq_refl)) as X5 end.
  match type of X5 with gexec _ (Gst ?g ?f) => pose proof (gx_step _ _ [] _ X5 (gt_waits g f 9 eq_refl eq_refl)) as X6 end.
  match type of X6 with gexec _ (Gst ?g ?f) => pose proof (gx_step _ _ [EUnlock 2] _ X6 (gt_unlock g f 2 0 eq_refl)) as X7 end.
  eexists. split; [exact X7|]. repeat split.
Qed.
Lemma gsample2_state : exists x, gexec gsample2 x /\ gs_th x 9 = GTest /\ gs_g x = Gcnt 1 1 0.
Proof.
  destruct gsample1_state as ([g f] & Hx & H9 & Hg & H1 & H3). cbn [gs_g gs_th] in *. subst g.
  eexists. split; [refine (gx_step gsample1 _ [EUnlock 1] _ Hx (gt_unlock _ _ 1 0 H1))|]. split; [vm_compute; rewrite H9; reflexivity|reflexivity].
Qed.
Lemma gsample3_state : exists x, gexec (gsample2 ++ [EFinish 9]) x.
Proof.
  destruct gsample2_state as ([g f] & Hx & H9 & Hg). cbn [gs_g gs_th] in *. subst g.
  eexists. refine (gx_step gsample2 _ [EFinish 9] _ Hx (gt_returns (Gcnt 1 1 0) f 9 H9 eq_refl)).
Qed.

Lemma few_starts h : (length h < 100)%nat -> no_wrap h.
Proof.
  intros H t h1 h2 n -> Hn. assert (X : forall n, held t h1 = Some n -> n <= blen h1).
  { clear. induction h1 as [|v h IH] using rev_ind; [discriminate|]. intros n. rewrite held_snoc, blen_app.
    replace (blen [v]) with 1 by reflexivity. intros E.
    destruct (held t h) as [m|]; [specialize (IH m eq_refl)|]; destruct v as [u|u|u|u]; cbn in E; try destruct (u =? t);
      try discriminate; injection E as <-; lia. }
  specialize (X n Hn). unfold blen in X. rewrite app_length in H. assert (100 < 2 ^ 64) by reflexivity. lia.
Qed.

(** ** C48 *)
(** C48.  In every execution the counters are exact: cur_ threads hold a lock they got since
    the last start(), prev_ threads hold one they got before. *)
Theorem C48_counts : forall h x, gexec h x -> no_wrap h ->
  number (fun t => held t h = Some 0) (gn_cur (gs_g x)) /\
  number (fun t => exists a, held t h = Some a /\ 0 < a) (gn_prev (gs_g x)).
Proof. intros h x Hx Hw. destruct (gexec_inv _ _ Hx Hw) as [_ _ _ I4 I5 _]. split; assumption. Qed.

Example C48_counts_example : exists x, gexec gsample1 x /\ gs_g x = Gcnt 1 1 1 /\ no_wrap gsample1 /\
  held 3 gsample1 = Some 0 /\ held 1 gsample1 = Some 1 /\ held 2 gsample1 = None.
Proof.
  destruct gsample1_state as (x & Hx & _ & Hg & _). exists x. split; [exact Hx|]. split; [exact Hg|].
  split; [apply few_starts; cbn; lia|]. repeat split.
Qed.

(** C48: when finish() returns, every lock that is held has been obtained since the last
    start(); so a lock that was held when start() was called has been given back. *)
Theorem C48_finish_waits : forall h f x, gexec (h ++ [EFinish f]) x -> no_wrap (h ++ [EFinish f]) ->
  forall t a, held t h = Some a -> a = 0.
Proof. exact finish_means. Qed.

Theorem C48_earlier_given_back : forall h1 f h2 g x t a,
  gexec (h1 ++ EStart f :: h2 ++ [EFinish g]) x -> no_wrap (h1 ++ EStart f :: h2 ++ [EFinish g]) ->
  held t h1 = Some a -> In (EUnlock t) h2.
Proof. exact finish_after. Qed.

Example C48_earlier_given_back_example : exists x,
  gexec ([ELock 1; ELock 2] ++ EStart 9 :: [ELock 3; EUnlock 2; EUnlock 1] ++ [EFinish 9]) x /\
  no_wrap ([ELock 1; ELock 2] ++ EStart 9 :: [ELock 3; EUnlock 2; EUnlock 1] ++ [EFinish 9]) /\
  held 1 [ELock 1; ELock 2] = Some 0 /\ held 3 gsample2 = Some 0.
Proof.
  destruct gsample3_state as (x & Hx). exists x. split; [exact Hx|]. split; [apply few_starts; cbn; lia|]. split; reflexivity.
Qed.

(** C48: no wake-up is lost: whenever a thread waits in finish(), someone holds a lock from
    before the last start(), who will wake it ... *)
Theorem C48_no_lost_wakeup : forall h x f, gexec h x -> no_wrap h -> gs_th x f = GWait ->
  exists t a, held t h = Some a /\ 0 < a.
Proof. exact waits_for. Qed.

Example C48_no_lost_wakeup_example : exists x, gexec gsample1 x /\ gs_th x 9 = GWait /\ no_wrap gsample1.
Proof.
  destruct gsample1_state as (x & Hx & H9 & _). exists x. split; [exact Hx|]. split; [exact H9|]. apply few_starts. cbn. lia.
Qed.

(** ... and once nobody does, finish() returns at once, whoever has got a lock since. *)
Theorem C48_returns : forall h x f, gexec h x -> no_wrap h -> gs_th x f = GTest ->
  (forall t a, held t h = Some a -> a = 0) ->
  (exists y, gstep x [EFinish f] y) /\ forall y, gs_th y f = GWait -> ~ gstep x [] y.
Proof. intros h x f Hx Hw Hf Hn. destruct (returns_when h x f Hx Hw Hf Hn) as [H1 H2]. split; [eauto|exact H2]. Qed.

Example C48_returns_example : exists x, gexec gsample2 x /\ gs_th x 9 = GTest /\ no_wrap gsample2 /\
  held 3 gsample2 = Some 0 /\ exists y, gstep x [EFinish 9] y.
Proof.
  destruct gsample2_state as (x & Hx & H9 & Hg). exists x. split; [exact Hx|]. split; [exact H9|].
  split; [apply few_starts; cbn; lia|]. split; [reflexivity|].
  destruct x as [g f]. cbn [gs_g gs_th] in *. subst g. eexists. apply gt_returns; [exact H9|reflexivity].
Qed.

(** C48: getting and giving back a lock never waits. *)
Theorem C48_locks_never_wait : forall x t,
  (gs_th x t = GIdle -> exists y, gstep x [ELock t] y) /\
  (forall n, gs_th x t = GHolds n -> exists y, gstep x [EUnlock t] y).
Proof.
  intros [g f] t. cbn [gs_th]. split; [intros H; eexists; apply gt_lock; exact H|].
  intros n H. eexists. eapply gt_unlock. exact H.
Qed.

Example C48_locks_never_wait_example : exists x y, gexec gsample1 x /\ gs_th x 1 = GHolds 0 /\ gstep x [EUnlock 1] y.
Proof.
  destruct gsample1_state as (x & Hx & _ & _ & H1 & _).
  destruct (proj2 (C48_locks_never_wait x 1) 0 H1) as (y & Hy). exists x, y. auto.
Qed.

(** ** C49 *)
(** C49, the part that holds.  As long as genlocks are not moved, swapped or released, no
    operation uses gen_ without its having been set, and the gentex counts exactly the
    genlocks that own a lock: none is lost, none is given back twice. *)
Theorem C49_locks_counted : forall l,
  Forall (fun o => stays o = true) l -> starts l < 2 ^ 64 ->
  match genlocks l with
  | Some (LOk g f) => number (owns_in f) (gn_cur g + gn_prev g)
  | Some LUndef => False
  | _ => True
  end.
Proof.
  intros l Hl Hs.
  assert (H0 : lsim (Gcnt 0 0 0) (fun _ => None) 0 [] (Gst (Gcnt 0 0 0) (fun _ => GIdle))).
  { constructor; auto; try discriminate; [apply gx_nil|].
    intros t h1 h2 n E. destruct h1; [discriminate|discriminate]. }
  assert (Hs' : 0 + starts l < 2 ^ 64) by exact Hs.
  pose proof (ldos_sim l _ _ _ _ _ Hl H0 Hs') as X. unfold genlocks.
  destruct (ldos l (Gcnt 0 0 0) (fun _ => None)) as [[g f| |]|]; auto. destruct X as (h & x & Hi). eapply lsim_count; eauto.
Qed.

(** C49: used as the store uses them they fail no assertion either. *)
Theorem C49_scoped_locks_safe : forall l,
  Forall (fun o => scoped o = true) l -> starts l < 2 ^ 64 ->
  genlocks l <> Some LAssert /\ genlocks l <> Some LUndef.
Proof.
  intros l Hl Hs. split; [apply scoped_asserts; exact Hl|]. intros E.
  assert (H : Forall (fun o => stays o = true) l) by (eapply Forall_impl; [|exact Hl]; intros [ ]; cbn; congruence).
  pose proof (C49_locks_counted l H Hs) as X. rewrite E in X. exact X.
Qed.

Definition lsample : list lop := [LNew 1; LNew 2; LStart; LNew 3; LDestroy 1].
Example C49_locks_counted_example :
  Forall (fun o => stays o = true) lsample /\ Forall (fun o => scoped o = true) lsample /\ starts lsample < 2 ^ 64 /\
  match genlocks lsample with
  | Some (LOk g f) => g = Gcnt 1 1 1 /\ owns_in f 2 /\ owns_in f 3 /\ f 1 = None
  | _ => False
  end.
Proof.
  split; [repeat constructor|]. split; [repeat constructor|]. split; [reflexivity|]. cbn.
  split; [reflexivity|]. split; [eexists; split; reflexivity|]. split; [eexists; split; reflexivity|reflexivity].
Qed.

(** C49, the part that does not hold: the move constructor and swap do not copy gen_, so the
    genlock that owns the lock then gives it back with a number that has never been set ... *)
Theorem C49_moved_lock_refuted :
  genlocks [LNew 1; LMoveNew 2 1; LDestroy 2] = Some LUndef /\
  genlocks [LNew 1; LDefer 2; LSwap 1 2; LDestroy 2] = Some LUndef.
Proof. split; reflexivity. Qed.

(** ... and move assignment leaves the number of a lock given back long ago: a lock that is
    then given back is counted as one of an earlier generation, and prev_ passes below zero,
    so that finish() would wait for 2^64 - 1 locks that nobody holds. *)
Theorem C49_assigned_lock_refuted : exists g f,
  genlocks [LNew 1; LUnlock 1; LStart; LNew 2; LMove 1 2; LDestroy 1; LDestroy 2] = Some (LOk g f) /\
  gn_cur g = 1 /\ gn_prev g = 2 ^ 64 - 1 /\ forall i, f i = None.
Proof.
  do 2 eexists. split; [reflexivity|]. split; [reflexivity|]. split; [reflexivity|].
  intros i. unfold lput. destruct (i =? 2); [reflexivity|]. destruct (i =? 1); reflexivity.
Qed.

Print Assumptions C48_counts.
Print Assumptions C48_finish_waits.
Print Assumptions C48_earlier_given_back.
Print Assumptions C48_no_lost_wakeup.
Print Assumptions C48_returns.
Print Assumptions C48_locks_never_wait.
Print Assumptions C49_locks_counted.
Print Assumptions C49_scoped_locks_safe.
Print Assumptions C49_moved_lock_refuted.
Print Assumptions C49_assigned_lock_refuted.
