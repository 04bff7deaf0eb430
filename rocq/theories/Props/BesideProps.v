(** C72: visit() of a database that a store has open and is writing to. *)
From Verif Require Import Model.Bytes Model.Err Model.Field Model.Format Model.IO Model.BulkIO Model.Bucket Model.Pool
  Model.Recover Model.Create Model.Store Model.History Model.Crash Model.Events Model.Visit Model.Beside Spec SpecVisit
  Proofs.BesideFacts Props.VisitProps Props.Samples.

(** A store with any past [l] starts a flush; visit() with any callback, started at the same time,
    does its reads between the operations of the flush in any way.  It calls the callback
    for all pairs saved before ([W]), in the order of saving, then for some of those
    being saved, also in order ([W'] is all that is saved when the flush is done), each
    with its whole key and value.  It ends without error, or stops where the callback sets one
    ([calls] then are those for the first pairs of [W']).  Only if a write can be seen in part
    ([torn]) may it also end with short_read or throw. *)
Theorem C72_visit_during_flush_partial : forall torn e a l w s w' s' cb x,
  iter_ok e -> good_args a -> Forall (valid_op (ca_key_size a)) l -> lived e a l w s ->
  lived e a (l ++ [OpFlush]) w' s' -> beside torn (visit cb) (store_flush e s) w x ->
  let W := written sempty [] [] l in
  let W' := written sempty [] [] (l ++ [OpFlush]) in
  exists calls r, x = Ok (calls, r) /\
    ((exists new rest, items calls = W ++ new /\ W ++ new ++ rest = W' /\ no_error cb calls /\
        (r = Ok tt \/ torn = true /\ (r = Er short_read \/ r = Er EThrow))) \/
     (exists before k v er rest, calls = before ++ [VItem k v] /\ cb before k v = Some er /\ r = Er er /\
        no_error cb before /\ items calls ++ rest = W')).
Proof. exact visit_beside. Qed.

(** ** It may fail *)

(** Thirty pairs saved, three to be saved. *)
Definition three_more : list op :=
  sample_inserts 30 ++ OpFlush :: map (fun i => OpInsert (sample_key i) (sample_val i)) [81; 82; 83].

Definition torn_case (n : N) : option (nat * res unit) :=
  match life sample_env sample_args three_more with
  | (w, Some s, _) =>
    match in_part n (visit never) (store_flush sample_env s) w with
    | Some (Ok (calls, r)) => Some (length (items calls), r)
    | _ => None
    end
  | _ => None
  end.

Lemma torn_case_beside n c r : torn_case n = Some (c, r) -> exists w s calls, lived sample_env sample_args three_more w s /\
  beside true (visit never) (store_flush sample_env s) w (Ok (calls, r)) /\ length (items calls) = c.
Proof.
  unfold torn_case, lived. destruct (life sample_env sample_args three_more) as [[w [s|]] os]; [|discriminate].
  destruct (in_part n (visit never) (store_flush sample_env s) w) as [[[calls r']|er]|] eqn:E; try discriminate.
  intros H. injection H as <- <-. exists w, s, calls. split; [eauto|]. split; [|reflexivity].
  apply in_part_beside with (n := n). exact E.
Qed.

(** With the database sound and nothing failing visit() reports short_read, having seen 30 pairs,
    when the first 4 bytes of the write are there, and throws std::logic_error when 11 or, after
    31 pairs, 22 bytes are. *)
Theorem C72_visit_fails_refuted :
  (exists w s calls, lived sample_env sample_args three_more w s /\
     beside true (visit never) (store_flush sample_env s) w (Ok (calls, Er short_read)) /\ length (items calls) = 30%nat) /\
  (exists w s calls, lived sample_env sample_args three_more w s /\
     beside true (visit never) (store_flush sample_env s) w (Ok (calls, Er EThrow)) /\ length (items calls) = 30%nat) /\
  (exists w s calls, lived sample_env sample_args three_more w s /\
     beside true (visit never) (store_flush sample_env s) w (Ok (calls, Er EThrow)) /\ length (items calls) = 31%nat).
Proof.
  split; [|split].
  - apply (torn_case_beside 4). vm_compute. reflexivity.
  - apply (torn_case_beside 11). vm_compute. reflexivity.
  - apply (torn_case_beside 22). vm_compute. reflexivity.
Qed.

(** ** Cases *)

(** All hypotheses with [torn] false: visit() runs after the first write to the data file (of all
    three records; the key file has not been written to), and shows 33 pairs, 30 of them saved before. *)
Definition whole_case : option (nat * res unit * bool) :=
  match life sample_env sample_args three_more with
  | (w, Some s, _) =>
    match to_data (store_flush sample_env s) w with
    | Some (ap, off, d, k, w1) =>
      let w2 := fst (exec (IoWrite FDat ap off d) w1) in
      match snd (run (visit never) w2) with
      | Ok (calls, r) => Some (length (items calls), r, obeq (w_key w2) (w_key w))
      | Er _ => None
      end
    | None => None
    end
  | _ => None
  end.
Lemma whole_case_beside c r b : whole_case = Some (c, r, b) -> exists w s calls, lived sample_env sample_args three_more w s /\
  beside false (visit never) (store_flush sample_env s) w (Ok (calls, r)) /\ length (items calls) = c.
Proof.
  unfold whole_case, lived. destruct (life sample_env sample_args three_more) as [[w [s|]] os]; [|discriminate].
  destruct (to_data (store_flush sample_env s) w) as [[[[[ap off] d] k] w1]|] eqn:E; [|discriminate].
  pose (z := snd (run (visit never) (fst (exec (IoWrite FDat ap off d) w1)))).
  change (match z with Ok (calls, r) => Some (length (items calls), r,
    obeq (w_key (fst (exec (IoWrite FDat ap off d) w1))) (w_key w)) | Er _ => None end = Some (c, r, b) -> 
    exists w0 s0 calls, (exists os0, (w, Some s, os) = (w0, Some s0, os0)) /\
    beside false (visit never) (store_flush sample_env s0) w0 (Ok (calls, r)) /\ length (items calls) = c).
  destruct z as [[calls r']|er] eqn:Z; [|discriminate]. intros H. injection H as <- <- _.
  exists w, s, calls. split; [eauto|]. split; [|reflexivity].
  eapply to_data_beside; [exact E|]. apply bs_other. rewrite <- Z. apply beside_at_once.
Qed.
Example C72_case :
  (exists w s calls, lived sample_env sample_args three_more w s /\
    beside false (visit never) (store_flush sample_env s) w (Ok (calls, Ok tt)) /\ length (items calls) = 33%nat) /\
  (exists w' s', lived sample_env sample_args (three_more ++ [OpFlush]) w' s') /\
  good_args sample_args /\ iter_ok sample_env /\ Forall (valid_op (ca_key_size sample_args)) three_more /\
  length (written sempty [] [] three_more) = 30%nat /\ length (written sempty [] [] (three_more ++ [OpFlush])) = 33%nat.
Proof.
  split; [apply (whole_case_beside _ _ true); vm_compute; reflexivity|]. split.
  - unfold lived. destruct (life sample_env sample_args (three_more ++ [OpFlush])) as [[w' [s'|]] os] eqn:E; [eauto|].
    exfalso. assert (X : match snd (fst (life sample_env sample_args (three_more ++ [OpFlush]))) with
                | Some _ => true | None => false end = true) by (vm_compute; reflexivity).
    rewrite E in X. discriminate X.
  - split; [exact sample_args_good|]. split; [exact sample_env_ok|]. split; [repeat constructor|].
    split; vm_compute; reflexivity.
Qed.

Print Assumptions C72_visit_during_flush_partial.
Print Assumptions C72_visit_fails_refuted.
