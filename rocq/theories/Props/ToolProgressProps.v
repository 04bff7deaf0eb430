(** C79: the progress shown by the tool. *)
From Verif Require Import Model.Bytes Model.Err Model.Field Model.Format Model.IO Model.BulkIO Model.Bucket Model.Pool
  Model.Recover Model.Create Model.Store Model.History Model.Crash Model.Events Model.Visit Model.Verify Model.VerifyProgress
  Model.ToolProgress Spec SpecVisit SpecRekey SpecToolProgress Proofs.ToolProgressFacts Props.Samples Props.VerifyProgressProps.

(** The progress function of the tool is called with amounts as visit() and rekey() report them (C41, C42): first 0,
    then amounts that never decrease and never exceed the total.  The clock, which is read in every call, does
    not go back.  The time for the rest at the rate so far is less than 2^63 nanoseconds (292 years)
    in every call.  Then nothing undefined happens, and the lines are right. *)
Theorem C79_display : forall t0 total l, total < 2 ^ 64 -> forward t0 (map fst l) -> reports 0 total (map snd l) ->
  Forall (fun c : N * (N * N) => 0 < fst (snd c) -> (total - fst (snd c)) * (fst c - t0) < 2 ^ 63 * fst (snd c)) l ->
  exists lines, progress_calls None ((t0, (0, total)) :: l) = Ok lines /\ lines_ok total 0 0 lines.
Proof. exact display_ok. Qed.

(** So it is for visit() of any database. *)
Theorem C79_visit : forall e a l w s cb d,
  iter_ok e -> good_args a -> Forall (valid_op (ca_key_size a)) l -> lived e a l w s -> w_dat w = Some d ->
  exists calls r rest, run (visit cb) w = (w, Ok (calls, r)) /\ amounts calls = (0, blen d) :: rest /\
    forall t0 ts, forward t0 ts -> length ts = length rest ->
      (forall t x y, In (t, (x, y)) (combine ts rest) -> 0 < x -> (blen d - x) * (t - t0) < 2 ^ 63 * x) ->
      exists lines, progress_calls None (combine (t0 :: ts) (amounts calls)) = Ok lines /\ lines_ok (blen d) 0 0 lines.
Proof. exact visit_display. Qed.

(** For verify() it is not, because its amounts may exceed the total (C53): here a database that takes
    longer than 30 seconds to verify; the first line would show a time computed from a difference below 0. *)
Definition late (c : N * N) : N := if snd c <? fst c then 31 * second else 0.
Theorem C79_verify_refuted : exists e a l w s w' t v,
  iter_ok e /\ good_args a /\ Forall (valid_op (ca_key_size a)) l /\ lived e a l w s /\
  run (verify_progress e 0) w = (w', Ok (t, Ok v)) /\
  forward 0 (map late t) /\ progress_calls None (combine (map late t) t) = Er EUB.
Proof.
  assert (X : match life sample_env args_half short_sessions with
    | (w, Some s, os) => match run (verify_progress sample_env 0) w with
       | (w', Ok (t, Ok v)) => forward 0 (map late t) /\ progress_calls None (combine (map late t) t) = Er EUB
       | _ => False end
    | _ => False end) by (vm_compute; repeat split; discriminate).
  exists sample_env, args_half, short_sessions.
  destruct (life sample_env args_half short_sessions) as [[w [s|]] os] eqn:E; [|contradiction].
  exists w, s. destruct (run (verify_progress sample_env 0) w) as [w' [[t [v|]]|]] eqn:R; try contradiction.
  exists w', t, v. split; [exact sample_env_ok|]. split; [unfold good_args, args_half; simpl; lia|].
  split. { clear. repeat constructor. all: vm_compute; auto; try discriminate. }
  split; [exists os; exact E|]. split; [reflexivity|exact X].
Qed.

(** A progress object that has not been called with 0 is not ready. *)
Theorem C79_first_call : forall t x y, x <> 0 -> progress_call None t x y = Er EUB.
Proof. intros t x y H. unfold progress_call. replace (x =? 0) with false by lia. reflexivity. Qed.

(** The thread of the clock takes the time at least every 0.9 seconds.  But in the last tenth of every
    second it does not sleep. *)
Theorem C79_clock : forall t, clock_wake t <= t + 900000000.
Proof. exact wake_soon. Qed.
Theorem C79_clock_busy_refuted : forall t, clock_wake t <= t <-> 900000000 <= t mod second.
Proof.
  intros t. unfold clock_wake. pose proof (N.div_mod t second ltac:(discriminate)) as H. lia.
Qed.

(** A case: 120 gigabytes in three minutes; the second call is too early for a line, and so is the
    fourth. *)
Example C79_case :
  let total := 120000000000 in
  let l := [(20 * second, (10000000000, total)); (40 * second, (20000000000, total)); (70 * second, (50000000000, total));
            (120 * second, (100000000000, total)); (120 * second, (100000005000, total))] in
  progress_calls None ((0, (0, total)) :: l) =
    Ok [Shown (200 * second) 20000000000 total (40 * second) 20000000000 (40 * second);
        Shown (24 * second) 100000000000 total (120 * second) 80000000000 (80 * second)] /\
  forward 0 (map fst l) /\ reports 0 total (map snd l) /\
  Forall (fun c : N * (N * N) => 0 < fst (snd c) -> (total - fst (snd c)) * (fst c - 0) < 2 ^ 63 * fst (snd c)) l.
Proof. vm_compute. repeat split; try discriminate; repeat constructor. Qed.

Print Assumptions C79_display.
Print Assumptions C79_visit.
Print Assumptions C79_verify_refuted.
Print Assumptions C79_first_call.
Print Assumptions C79_clock.
Print Assumptions C79_clock_busy_refuted.
