(** C01-C05: the store is an insert-only map. *)
From Verif Require Import Model.Bytes Model.Err Model.Format Model.IO Model.Bucket Model.Create
  Model.Store Spec Model.History Proofs.BytesFacts Proofs.MapFacts Props.Samples.

(** C01.  Every history of calls from create() and open() on gets exactly the
    answers an insert-only map gives, as long as the data file stays below the
    2^48 bytes that the format can address ([within_limit]: no upper bound on the calls,
    only on the size of the file). *)
Theorem C01_store_is_insert_only_map : forall e a l,
  iter_ok e -> good_args a -> Forall (valid_op (ca_key_size a)) l -> within_limit e a l ->
  answers e a l = spec_outs sempty l.
Proof. exact answers_spec. Qed.

Example C01_example :
  answers sample_env sample_args sample_life = spec_outs sempty sample_life /\
  nth 30 (answers sample_env sample_args sample_life) OOther = ODone /\
  nth 31 (answers sample_env sample_args sample_life) OOther = OKeyExists /\
  nth 32 (answers sample_env sample_args sample_life) OOther = OFound [17; 1; 2; 17] /\
  nth 36 (answers sample_env sample_args sample_life) OOther = ONotFound.
Proof.
  split; [|vm_compute; repeat split].
  exact (C01_store_is_insert_only_map _ _ _ sample_env_ok sample_args_good sample_life_valid
    (or_introl sample_life_small)).
Qed.

(** C01 without the bound on the size: the answers are those of the map up to a
    possible abort (failed assertion on a 48-bit offset), never wrong ones, and an
    abort only comes when the data file has come near its limit. *)
Theorem C01_never_a_wrong_answer : forall e a l,
  iter_ok e -> good_args a -> Forall (valid_op (ca_key_size a)) l ->
  answers e a l = spec_outs sempty l \/
  ~ within_limit e a l /\ exists n, (n < length l)%nat /\ answers e a l = firstn n (spec_outs sempty l) ++ [OAborted].
Proof. exact answers_prefix. Qed.

(** C02.  Inserting a key that is present reports key_exists and changes neither
    files nor store (insert only returns a new store on success). *)
Theorem C02_duplicate_insert_refused : forall e a l w s k v v',
  iter_ok e -> good_args a -> Forall (valid_op (ca_key_size a)) l -> lived e a l w s ->
  spec_final sempty l k = Some v' ->
  blen k = ca_key_size a -> 0 < blen v < 2 ^ 32 ->
  run (store_insert e s k v) w = (w, Er key_exists).
Proof. exact duplicate_insert. Qed.

Example C02_example :
  exists w s, lived sample_env sample_args sample_life w s /\
    spec_final sempty sample_life (sample_key 3) = Some (sample_val 3) /\
    run (store_insert sample_env s (sample_key 3) [5]) w = (w, Er key_exists).
Proof.
  destruct sample_lived as (w & s & H & _). exists w, s.
  assert (Hf : spec_final sempty sample_life (sample_key 3) = Some (sample_val 3))
    by (vm_compute; reflexivity).
  splits; [exact H|exact Hf|].
  apply (C02_duplicate_insert_refused _ sample_args _ w s _ _ _ sample_env_ok sample_args_good
    sample_life_valid H Hf); vm_compute; auto.
Qed.

(** C03.  A key that no call inserted is not found, whatever the hash function. *)
Theorem C03_no_false_hits : forall e a l w s k,
  iter_ok e -> good_args a -> Forall (valid_op (ca_key_size a)) l -> lived e a l w s ->
  (forall v, ~ In (OpInsert k v) l) -> blen k = ca_key_size a ->
  run (store_fetch e s k) w = (w, Er key_not_found).
Proof. exact no_false_hits. Qed.

(** The hash of the missing key equals that of a stored one. *)
Example C03_example :
  exists w s, lived sample_env sample_args sample_life w s /\
    hash (e_hasher sample_env) 11 [3; 0] = hash (e_hasher sample_env) 11 (sample_key 3) /\
    run (store_fetch sample_env s [3; 0]) w = (w, Er key_not_found).
Proof.
  destruct sample_lived as (w & s & H & _). exists w, s.
  splits; [exact H|vm_compute; reflexivity|].
  apply (C03_no_false_hits _ _ _ w s _ sample_env_ok sample_args_good sample_life_valid H);
    [|reflexivity].
  intros v Hin. unfold sample_life in Hin. vm_compute in Hin.
  repeat (destruct Hin as [Hin|Hin]; [inversion Hin|]); auto.
Qed.

(** C04.  A flush inserted anywhere in a history changes no other answer. *)
Theorem C04_flush_invisible : forall e a l1 l2,
  iter_ok e -> good_args a -> Forall (valid_op (ca_key_size a)) (l1 ++ l2) ->
  within_limit e a (l1 ++ l2) -> within_limit e a (l1 ++ OpFlush :: l2) ->
  exists o1 o2, length o1 = length l1 /\
    answers e a (l1 ++ l2) = o1 ++ o2 /\
    answers e a (l1 ++ OpFlush :: l2) = o1 ++ ODone :: o2.
Proof. exact flush_invisible. Qed.

(** C04, on states: after a flush every fetch and insert answers as before; a
    flush only fails (by abort) if the data file has come near its limit. *)
Theorem C04_flush_state : forall e a l w s,
  iter_ok e -> good_args a -> Forall (valid_op (ca_key_size a)) l -> lived e a l w s ->
  exists w' s', run (store_flush e s) w = (w', s') /\
    (st_ec s' = None /\
     (forall k, blen k = ca_key_size a ->
        snd (run (store_fetch e s' k) w') = snd (run (store_fetch e s k) w)) /\
     (forall k v, blen k = ca_key_size a -> 0 < blen v < 2 ^ 32 ->
        insert_out (snd (run (store_insert e s' k v) w')) =
        insert_out (snd (run (store_insert e s k v) w))) \/
     st_ec s' = Some EAssert /\ near_limit w' /\ ~ small_history l).
Proof. exact flush_state. Qed.

Example C04_example :
  exists w s, lived sample_env sample_args sample_life w s /\ small_history sample_life /\
    snd (run (store_fetch sample_env s (sample_key 78)) w) = Ok [8].
Proof.
  destruct sample_lived as (w & s & H & _). exists w, s.
  splits; [exact H|exact sample_life_small|].
  destruct H as (os & H).
  assert (X : match life sample_env sample_args sample_life with
              | (w, Some s, _) => snd (run (store_fetch sample_env s (sample_key 78)) w)
              | _ => Er EUB end = Ok [8]) by (vm_compute; reflexivity).
  rewrite H in X. exact X.
Qed.

(** C05.  close() succeeds and removes the log, open() succeeds on the files left
    by close(), and the store it gives answers every fetch and insert as before;
    or close() aborts because the data file has come near its limit. *)
Theorem C05_reopen_preserves : forall e a l w s,
  iter_ok e -> good_args a -> Forall (valid_op (ca_key_size a)) l -> lived e a l w s ->
  (exists w1 w2 s', run (store_close e s) w = (w1, Ok tt) /\ w_log w1 = None /\
     run (store_open e) w1 = (w2, Ok s') /\
     (forall k, blen k = ca_key_size a ->
        snd (run (store_fetch e s' k) w2) = snd (run (store_fetch e s k) w)) /\
     (forall k v, blen k = ca_key_size a -> 0 < blen v < 2 ^ 32 ->
        insert_out (snd (run (store_insert e s' k v) w2)) =
        insert_out (snd (run (store_insert e s k v) w)))) \/
  exists w1, run (store_close e s) w = (w1, Er EAssert) /\ near_limit w1 /\ ~ small_history l.
Proof. exact reopen_preserves. Qed.

Example C05_example :
  exists w s, lived sample_env sample_args sample_life w s /\ small_history sample_life /\
    exists w1, run (store_close sample_env s) w = (w1, Ok tt).
Proof.
  destruct sample_lived as (w & s & H & _). exists w, s.
  splits; [exact H|exact sample_life_small|].
  destruct (C05_reopen_preserves _ _ _ w s sample_env_ok sample_args_good sample_life_valid H)
    as [(w1 & w2 & s' & X & _)|(w1 & _ & _ & X)]; [exists w1; exact X|].
  destruct (X sample_life_small).
Qed.

Print Assumptions C01_store_is_insert_only_map.
Print Assumptions C01_never_a_wrong_answer.
Print Assumptions C02_duplicate_insert_refused.
Print Assumptions C03_no_false_hits.
Print Assumptions C04_flush_invisible.
Print Assumptions C04_flush_state.
Print Assumptions C05_reopen_preserves.
