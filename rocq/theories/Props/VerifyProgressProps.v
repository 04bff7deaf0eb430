(** C53: the progress that verify() reports. *)
From Verif Require Import Model.Bytes Model.Err Model.Field Model.Format Model.IO Model.BulkIO
  Model.Bucket Model.Pool Model.Recover Model.Create Model.Store Model.History Model.Visit Model.Verify Model.Events
  Model.VerifyProgress Spec SpecFormat SpecHeader SpecDisk SpecVisit SpecVerify SpecProgress
  Proofs.BytesFacts Proofs.RefuseFacts Proofs.VisitFacts Proofs.VerifyProgressTheorems Props.Samples Props.VerifyProps.

(** The program with the calls of the progress function does to the files what verify()
    of Model/Verify.v does, and has the same result: all that is proved of verify() is
    true of it. *)
Theorem C53_same_result : forall e buf w,
  match run (verify_progress e buf) w with
  | (w', Ok (_, r)) => run (verify e buf) w = (w', r)
  | (w', Er er) => er = EDiverge /\ run (verify e buf) w = (w', Er er)
  end.
Proof. exact same_result_as_verify. Qed.

(** C53.  verify() on any files, healthy or not, with any buffer size.  Up to its end or
    its failure it has called progress(amount, total) with one total throughout and
    amounts that never decrease.  If it succeeds, no amount exceeds the total, provided
    that the fast algorithm ran or that the values and keys counted are no more than
    the load factor lets one expect.  (The sizes only say that 64 bits hold the total.) *)
Theorem C53_progress : forall e w d k buf w' t r,
  w_dat w = Some d -> w_key w = Some k -> bytes_ok k -> blen d < 2 ^ 49 -> blen k < 2 ^ 49 ->
  passes (num_at 44 2 k) (blen k / num_at 44 2 k - 1) buf * blen d + blen k < 2 ^ 64 ->
  run (verify_progress e buf) w = (w', Ok (t, r)) ->
  exists total, rising 0 total t /\
    forall v, r = Ok v ->
      vi_algorithm v = 1 \/ (vi_value_count v <= expected k /\ vi_key_count v <= expected k) ->
      at_most total t.
Proof. intros e w d k buf w' t r H1 H2 H3. exact (progress_of_verify e w d k H1 H2 H3 buf w' t r). Qed.

(** C53 for a database reached by a history of calls: verify() calls progress as above,
    and no amount exceeds the total if the fast algorithm ran or the values in the
    database are no more than the load factor lets one expect. *)
Theorem C53_healthy : forall e a l w s buf k,
  iter_ok e -> good_args a -> Forall (valid_op (ca_key_size a)) l -> lived e a l w s ->
  w_key w = Some k -> blen k < 2 ^ 49 ->
  passes (num_at 44 2 k) (blen k / num_at 44 2 k - 1) buf * 2 ^ 49 < 2 ^ 63 ->
  exists t r total, run (verify_progress e buf) w = (w, Ok (t, r)) /\ run (verify e buf) w = (w, r) /\
    rising 0 total t /\
    forall v, r = Ok v -> vi_algorithm v = 1 \/ blen (written sempty [] [] l) <= expected k -> at_most total t.
Proof. exact lived_progress. Qed.

(** ** Concrete databases *)
Definition ends (x : world * res (vtrace * res vinfo)) : option (N * N) * N * N * option (N * N) :=
  match snd x with
  | Ok (t, Ok v) => (hd_error t, blen t, vi_algorithm v, hd_error (rev t))
  | _ => (None, 0, 0, None)
  end.

(** The first call, the number of calls, the algorithm and the last call. *)
Example C53_sample :
  ends (run (verify_progress sample_env 0) files120) = (Some (0, 13400), 40, 0, Some (10940, 13400)) /\
  ends (run (verify_progress sample_env 1000) files120) = (Some (0, 1550), 35, 1, Some (1420, 1550)).
Proof. vm_compute. split; reflexivity. Qed.

(** The hypotheses of C53_progress hold of a sample, also those of its last part. *)
Example C53_sample_meets : exists d k, w_dat files120 = Some d /\ w_key files120 = Some k /\ bytes_ok k /\
  blen d < 2 ^ 49 /\ blen k < 2 ^ 49 /\
  passes (num_at 44 2 k) (blen k / num_at 44 2 k - 1) 0 * blen d + blen k < 2 ^ 64 /\
  exists w' t v, run (verify_progress sample_env 0) files120 = (w', Ok (t, Ok v)) /\
    vi_value_count v <= expected k /\ vi_key_count v <= expected k.
Proof.
  assert (X : match files120 with
    | World (Some d) (Some k) _ => forallb (fun b => b <? 256) k = true /\ blen d < 2 ^ 49 /\ blen k < 2 ^ 49 /\
       passes (num_at 44 2 k) (blen k / num_at 44 2 k - 1) 0 * blen d + blen k < 2 ^ 64 /\
       match run (verify_progress sample_env 0) files120 with
       | (w', Ok (t, Ok v)) => vi_value_count v <= expected k /\ vi_key_count v <= expected k
       | _ => False
       end
    | _ => False end) by (vm_compute; repeat split; discriminate).
  destruct files120 as [[d|] [k|] lg]; try contradiction. destruct X as (X1 & X2 & X3 & X4 & X5).
  exists d, k. split; [reflexivity|]. split; [reflexivity|]. split.
  { apply Forall_forall. intros b Hb. rewrite forallb_forall in X1. apply N.ltb_lt. exact (X1 b Hb). }
  split; [exact X2|]. split; [exact X3|]. split; [exact X4|].
  destruct (run (verify_progress sample_env 0) _) as [w' [[t [v|]]|]]; try contradiction.
  exists w', t, v. split; [reflexivity|exact X5].
Qed.

(** The bound in full is false of the code: a store that is opened does not know how
    many keys the sessions before counted towards the next bucket, so that many short
    sessions leave more keys than the load factor says. *)
Definition args_half : create_args := CreateArgs 7 9 11 2 200 (FVal 1 2).
Definition short_sessions : list op :=
  [OpInsert [1;1] [1]; OpInsert [1;2] [1]; OpReopen; OpInsert [1;3] [1]; OpInsert [1;4] [1]; OpReopen;
   OpInsert [1;5] [1]; OpInsert [1;6] [1]; OpReopen; OpInsert [1;7] [1]; OpInsert [1;8] [1]; OpReopen].

Theorem C53_bounded_refuted : exists e a l w s buf w' t v,
  iter_ok e /\ good_args a /\ Forall (valid_op (ca_key_size a)) l /\ lived e a l w s /\
  run (verify_progress e buf) w = (w', Ok (t, Ok v)) /\ In (4914, 3614) t.
Proof.
  assert (X : match life sample_env args_half short_sessions with
    | (w, Some s, os) => match run (verify_progress sample_env 0) w with
       | (w', Ok (t, Ok v)) => existsb (fun c => (fst c =? 4914) && (snd c =? 3614)) t = true
       | _ => False end
    | _ => False end) by (vm_compute; reflexivity).
  exists sample_env, args_half, short_sessions.
  destruct (life sample_env args_half short_sessions) as [[w [s|]] os] eqn:E; [|contradiction].
  exists w, s, 0. destruct (run (verify_progress sample_env 0) w) as [w' [[t [v|]]|]] eqn:R; try contradiction.
  exists w', t, v. split; [exact sample_env_ok|]. split; [unfold good_args, args_half; simpl; lia|].
  split. { clear. repeat constructor. all: vm_compute; auto; try discriminate. }
  split; [exists os; exact E|]. split; [reflexivity|].
  clear E R. apply existsb_exists in X as ([x y] & H1 & H2). apply andb_prop in H2 as [H2 H3].
  apply N.eqb_eq in H2, H3. cbn [fst snd] in H2, H3. subst. exact H1.
Qed.

Print Assumptions C53_same_result.
Print Assumptions C53_progress.
Print Assumptions C53_healthy.
Print Assumptions C53_bounded_refuted.
