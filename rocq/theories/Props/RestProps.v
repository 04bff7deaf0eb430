(** C47: every call is answered and every flush ends. *)
From Verif Require Import Model.Bytes Model.Err Model.Format Model.IO Model.Bucket Model.Pool Model.Recover
  Model.Create Model.Store Spec SpecLin SpecDurable SpecFail Model.History Model.Crash Model.Events Model.Concurrent
  Model.ConcCrash Model.ConcFail Model.Rest Proofs.BytesFacts Proofs.StoreInv Proofs.LifeFacts Proofs.SafeFacts
  Proofs.LinFacts Proofs.ConcFacts Proofs.ConcInv Proofs.ConcTheorems Proofs.ConcFailInv Proofs.ConcFailRun Proofs.ConcFailAfter Proofs.ConcRest Props.Samples
  Props.ConcurrentProps Props.DurableProps Props.FailProps.

(** The state in which the flush waits for threads 1 and 4, and thread 5 reads. *)
Lemma sample_waiting : exists x, concurrent sample_env sample_args sample_start sample_hist1 x /\
  (exists y, goes_on sample_env x y) /\ ~ answered sample_hist1.
Proof.
  destruct sample_states as (x0 & x1 & x2 & h & _ & _ & _ & _ & _ & Hc & _ & _ & _ & Hh & _).
  exists x2. split; [exact Hc|]. split.
  - destruct (step_or_wait sample_env x2 1) as [E|[(h' & y & Hs)|[(_ & k & v & E)|(_ & k & v & E)]]];
      [rewrite E in Hh; discriminate| |rewrite E in Hh; discriminate..].
    exists y, h'. split; [eapply xs_thread; exact Hs|]. split; [eapply step_calls; exact Hs|].
    intros [X _]. eapply thread_not_still; [exact Hs|apply X].
  - intros X. destruct (X 1 (OpFetch (sample_key 5)) [] (tl sample_hist1) eq_refl) as (o & Ho).
    cbn in Ho. repeat (destruct Ho as [Ho|Ho]; [discriminate|]). contradiction.
Qed.

(** The state at the end, when key 60 has been flushed too. *)
Definition sample_acts4 : list act := sample_acts3 ++ times 30 AFlush.
Lemma sample_rest : exists x, concurrent sample_env sample_args sample_start sample_hist3 x /\ all_done x.
Proof.
  assert (X : match after sample_env sample_args sample_start sample_acts4 with
    | Some (h, x) => h = sample_hist3 /\ map (fun t => idle (x_th x t)) [1; 2; 3; 4; 5] = [true; true; true; true; true] /\
        match x_fl x with FlIdle => True | _ => False end /\ pool_is_empty (st_p1 (x_s x)) = true
    | None => False end) by (vm_compute; repeat split).
  destruct (after sample_env sample_args sample_start sample_acts4) as [[h x]|] eqn:E; [|contradiction].
  destruct X as (-> & X1 & X2 & X3).
  assert (C : concurrent sample_env sample_args sample_start sample_hist3 x).
  { eapply after_concurrent; [|exact E]. repeat constructor. }
  clear E. exists x. split; [exact C|]. split; [|split; [destruct (x_fl x); [reflexivity|contradiction..]|exact X3]].
  cbn [map] in X1. injection X1 as I1 I2 I3 I4 I5.
  intros t. destruct (N.eq_dec t 1) as [->|N1]; [exact (idle_true _ I1)|].
  destruct (N.eq_dec t 2) as [->|N2]; [exact (idle_true _ I2)|].
  destruct (N.eq_dec t 3) as [->|N3]; [exact (idle_true _ I3)|].
  destruct (N.eq_dec t 4) as [->|N4]; [exact (idle_true _ I4)|].
  destruct (N.eq_dec t 5) as [->|N5]; [exact (idle_true _ I5)|].
  destruct C as (w & s & _ & Hx). eapply never_called; [exact Hx|reflexivity|].
  intros c Hc. cbn in Hc. repeat (destruct Hc as [Hc|Hc]; [try discriminate; injection Hc; intros; subst; contradiction|]).
  contradiction.
Qed.

(** ** C47 *)
(** C47.  From every state that several threads and the flush can reach, however they go on,
    they do not go on for ever without new calls: no schedule makes a call or a flush run for
    ever. *)
Theorem C47_comes_to_rest : forall e a l h (s : nat -> xst),
  iter_ok e -> good_args a -> Forall (valid_op (ca_key_size a)) l ->
  concurrent e a l h (s O) ->
  ~ forall n, goes_on e (s n) (s (S n)).
Proof. exact comes_to_rest. Qed.

Example C47_comes_to_rest_example : exists s : nat -> xst,
  concurrent sample_env sample_args sample_start sample_hist1 (s O) /\ goes_on sample_env (s O) (s 1%nat) /\
  ~ forall n, goes_on sample_env (s n) (s (S n)).
Proof.
  destruct sample_waiting as (x & Hc & (y & Hy) & _).
  exists (fun n => match n with O => x | _ => y end). split; [exact Hc|]. split; [exact Hy|].
  eapply C47_comes_to_rest; [exact sample_env_ok|exact sample_args_good|exact sample_start_valid|exact Hc].
Qed.

(** C47: where nothing goes on any more, everything is done: no thread and no flush is stuck,
    nothing waits to be flushed, and every call has been answered.  (The last also holds when a
    flush has failed because the data file has come near the 2^48 bytes that the format can
    address.) *)
Theorem C47_rest_is_done : forall e a l h x,
  iter_ok e -> good_args a -> Forall (valid_op (ca_key_size a)) l ->
  concurrent e a l h x ->
  (all_done x -> forall y, ~ goes_on e x y) /\
  ((forall y, ~ goes_on e x y) -> answered h /\
     (all_done x \/ (forall t, x_th x t = CIdle) /\ near_limit (x_w x) /\ ~ small_history (l ++ calls h))).
Proof.
  intros e a l h x Hit Ha Hv Hc. split; [apply done_rest|].
  intros Hr. destruct (at_rest e a l h x Hit Ha Hv Hc Hr) as [Hi [Hd|Hn]].
  - split; [eapply idle_answered; eauto|]. left. split; assumption.
  - split; [eapply idle_answered; eauto|]. right. split; assumption.
Qed.

Example C47_rest_is_done_example :
  (exists x, concurrent sample_env sample_args sample_start sample_hist3 x /\ forall y, ~ goes_on sample_env x y) /\
  answered sample_hist3 /\ ~ answered sample_hist1.
Proof.
  destruct sample_rest as (x & Hc & Hd).
  destruct (C47_rest_is_done _ _ _ _ _ sample_env_ok sample_args_good sample_start_valid Hc) as [H1 H2].
  split; [exists x; split; [exact Hc|auto]|]. split; [apply H2; auto|]. destruct sample_waiting as (_ & _ & _ & X). exact X.
Qed.

(** C47: in particular every state that can be reached can be left in this way. *)
Theorem C47_can_finish : forall e a l h x,
  iter_ok e -> good_args a -> Forall (valid_op (ca_key_size a)) l ->
  concurrent e a l h x ->
  exists h' y, xexec e x h' y /\ calls h' = [] /\ answered (h ++ h') /\
    (all_done y \/ (forall t, x_th y t = CIdle) /\ near_limit (x_w y) /\ ~ small_history (l ++ calls h)).
Proof.
  intros e a l h x Hit Ha Hv Hc. destruct (finishes e a l h x Hit Ha Hv Hc) as (h' & y & H1 & H2 & H3 & H4).
  exists h', y. split; [exact H1|]. split; [exact H2|].
  split; [|destruct H4 as [H4|H4]; [left; split; assumption|right; split; assumption]].
  eapply idle_answered; [|exact H3]. destruct Hc as (w & s & Hl & Hx). exists w, s. split; [exact Hl|].
  eapply xexec_app; eauto.
Qed.

Example C47_can_finish_example : exists x h' y,
  concurrent sample_env sample_args sample_start sample_hist1 x /\
  xexec sample_env x h' y /\ calls h' = [] /\ all_done y /\ answered (sample_hist1 ++ h') /\ h' <> [].
Proof.
  destruct sample_waiting as (x & Hc & _ & Ha).
  destruct (C47_can_finish _ _ _ _ _ sample_env_ok sample_args_good sample_start_valid Hc) as (h' & y & H1 & H2 & H4 & [H3|(_ & _ & H3)]);
    [|destruct (H3 eq_refl)].
  exists x, h', y. split; [exact Hc|]. split; [exact H1|]. split; [exact H2|]. split; [exact H3|]. split; [exact H4|].
  intros ->. rewrite app_nil_r in H4. contradiction.
Qed.

(** C47: the same when file operations fail and the machine stops.  Operations that fail do
    not make anything go on for ever. *)
Theorem C47_failing_comes_to_rest : forall e a h (s : nat -> fmach),
  iter_ok e -> good_args a -> failing_use e a h (s O) ->
  ~ forall n, fgoes_on e (s n) (s (S n)).
Proof. exact fcomes_to_rest. Qed.

(** C47: and where nothing goes on any more, every call has been answered, unless the machine
    has stopped; the flush has been completed and nothing waits for the next, or it has
    failed and the store refuses calls. *)
Theorem C47_failing_rest_is_done : forall e a h c,
  iter_ok e -> good_args a -> failing_use e a h c ->
  small_history (fcalls h) \/ ~ near_limit (x_w (fm_x c)) ->
  ((forall c', ~ fgoes_on e c c') <->
   (forall t, x_th (fm_x c) t = CIdle) /\ (all_done (fm_x c) /\ fm_ec c = None \/ fm_ec c <> None)) /\
  ((forall c', ~ fgoes_on e c c') -> fanswered h).
Proof.
  intros e a h c Hit Ha Hu Hs.
  assert (R : (forall c', ~ fgoes_on e c c') ->
    (forall t, x_th (fm_x c) t = CIdle) /\ (all_done (fm_x c) /\ fm_ec c = None \/ fm_ec c <> None)).
  { intros Hr. destruct (fat_rest e a h c Hit Ha Hu Hs Hr) as (H1 & [(H2 & H3)|(n & Hn)]).
    - split; [exact H1|]. left. split; [split; [exact H1|exact H3]|exact H2].
    - split; [exact H1|]. right. congruence. }
  split; [split; [exact R|]|].
  - intros (H1 & H2). eapply fdone_rest; eauto.
  - intros Hr. eapply fidle_answered; [exact Hu|]. exact (proj1 (R Hr)).
Qed.

(** The state in which the flush is about to write to the log file, thread 3 inserts and
    thread 4 has made a call. *)
Definition fsample0 : list fact :=
  f_ins 1 ++ f_flush 20 ++ f_ins 2 ++ f_flush 10 ++
  [GCall 3 (OpInsert (sample_key 3) (sample_val 3)); GPass 3; GCall 4 (OpInsert (sample_key 4) (sample_val 4))].
Definition fhist0 : list fev :=
  [f_icall 1; ret 1 OInserted; FDev DBegin; FDev DEnd; f_icall 2; ret 2 OInserted; FDev DBegin; f_icall 3; f_icall 4].
Lemma fsample0_state : exists c, failing_use sample_env sample_args fhist0 c /\ exists c', fgoes_on sample_env c c'.
Proof.
  assert (X : match fafter sample_env sample_args fsample0 with
    | Some (h, s) => h = fhist0 /\ ex_ck s 4 = false /\
        match ex_ec s with None => True | _ => False end /\
        match x_th (ex_x s) 4 with CInsert _ _ => True | _ => False end
    | None => False end) by (vm_compute; repeat split).
  destruct (fafter sample_env sample_args fsample0) as [[h s]|] eqn:E; [|contradiction].
  destruct X as (-> & X2 & X3 & X4). apply fafter_use in E; [|repeat constructor]. destruct E as (S & H1 & _).
  eexists. split; [exact H1|]. destruct (ex_ec s); [contradiction|].
  eexists. exists []. split; [apply fs_pass with (t := 4); [destruct (x_th (ex_x s) 4); try contradiction; reflexivity|exact X2]|].
  split; [reflexivity|]. split; [intros []|]. intros [_ [Y _]]. cbn [fm_in] in Y. specialize (Y 4). rewrite X2 in Y. discriminate.
Qed.

Example C47_failing_comes_to_rest_example : exists s : nat -> fmach,
  failing_use sample_env sample_args fhist0 (s O) /\ fgoes_on sample_env (s O) (s 1%nat) /\
  ~ forall n, fgoes_on sample_env (s n) (s (S n)).
Proof.
  destruct fsample0_state as (c & Hc & (c' & Hy)).
  exists (fun n => match n with O => c | _ => c' end). split; [exact Hc|]. split; [exact Hy|].
  eapply C47_failing_comes_to_rest; [exact sample_env_ok|exact sample_args_good|exact Hc].
Qed.

Lemma never_called_f e a h c t : failing_use e a h c -> (forall c0, ~ In (FDev (DEv (HCall t c0))) h) ->
  x_th (fm_x c) t = CIdle.
Proof.
  intros (M & _ & Hx). remember (FMach _ _ _ _) as c0 eqn:E0. revert E0.
  induction Hx as [|c0 h c1 h' c2 Hx IH Hs]; intros -> Hn; [reflexivity|].
  assert (Hn1 : forall c0, ~ In (FDev (DEv (HCall t c0))) h) by (intros c0 X; apply (Hn c0), in_or_app; auto).
  specialize (IH eq_refl Hn1).
  assert (Hn2 : forall c0, ~ In (FDev (DEv (HCall t c0))) h') by (intros c0 X; apply (Hn c0), in_or_app; auto).
  inversion Hs as [x S ec ck u c3 s Ht Hv Hcs E1 E2|x S ck u Ht Hck E1 E2|x S er ck u Ht Hck E1 E2|x S ec ck u h2 x3 Hck Ht E1 E2|
    x S ec ck u op n h2 x3 Hio Ht E1 E2|x S ec ck x3 Hf E1 E2|x S ec ck op n w' Hio Hf E1 E2|x S ck er Hfe Hna E1 E2|
    x S er ck Hm Hp1 E1 E2|x S ec ck w1 w2 w3 s3 Hd' Hint Ho E1 E2]; subst; cbn [fm_x] in *; auto.
  - destruct (N.eq_dec t u) as [->|Hu]; [exfalso; eapply Hn2; left; reflexivity|].
    cbn [goto x_th]. rewrite tset_other by auto. exact IH.
  - destruct (N.eq_dec t u) as [->|Hu]; [rewrite IH in Ht; discriminate|].
    cbn [goto x_th]. rewrite tset_other by auto. exact IH.
  - destruct (N.eq_dec t u) as [->|Hu]; [exfalso; exact (step_active _ _ _ _ _ Ht IH)|].
    rewrite (proj1 (thread_other _ _ _ _ _ Ht) t Hu). exact IH.
  - destruct (N.eq_dec t u) as [->|Hu]; [rewrite IH in Hio; discriminate|].
    rewrite (proj1 (thread_other _ _ _ _ _ Ht) t Hu). cbn [goto x_th]. rewrite tset_other by auto. exact IH.
  - destruct (flush_step_hold _ _ _ Hf) as [-> _]. exact IH.
Qed.

Example C47_failing_rest_is_done_example : exists c,
  failing_use sample_env sample_args fhist1 c /\ fm_ec c = Some (EIO 28) /\
  (forall c', ~ fgoes_on sample_env c c') /\ fanswered fhist1.
Proof.
  assert (X : match fafter sample_env sample_args fsample1 with
    | Some (h, s) => h = fhist1 /\ ex_ec s = Some (EIO 28) /\
        map (fun t => idle (x_th (ex_x s) t)) [1; 2; 3; 4] = [true; true; true; true]
    | None => False end) by (vm_compute; repeat split).
  destruct (fafter sample_env sample_args fsample1) as [[h s]|] eqn:E; [|contradiction].
  destruct X as (-> & X2 & X3). apply fafter_use in E; [|repeat constructor]. destruct E as (S & H1 & _).
  destruct (C47_failing_rest_is_done _ _ _ _ sample_env_ok sample_args_good H1 (or_introl eq_refl)) as [[_ R1] R2].
  assert (R : forall c', ~ fgoes_on sample_env (FMach (ex_x s) S (ex_ec s) (ex_ck s)) c').
  { apply R1. split; [|right; cbn [fm_ec]; rewrite X2; discriminate]. clear R1 R2. cbn [fm_x map] in *.
    injection X3 as I1 I2 I3 I4.
    intros t. destruct (N.eq_dec t 1) as [->|N1]; [exact (idle_true _ I1)|].
    destruct (N.eq_dec t 2) as [->|N2]; [exact (idle_true _ I2)|].
    destruct (N.eq_dec t 3) as [->|N3]; [exact (idle_true _ I3)|].
    destruct (N.eq_dec t 4) as [->|N4]; [exact (idle_true _ I4)|].
    apply (never_called_f _ _ _ _ t H1).
    intros c Hc. cbn in Hc. repeat (destruct Hc as [Hc|Hc]; [try discriminate; injection Hc; intros; subst; contradiction|]).
    contradiction. }
  eexists. split; [exact H1|]. split; [exact X2|]. split; [exact R|auto].
Qed.

Print Assumptions C47_comes_to_rest.
Print Assumptions C47_rest_is_done.
Print Assumptions C47_can_finish.
Print Assumptions C47_failing_comes_to_rest.
Print Assumptions C47_failing_rest_is_done.
