(** C63: the delays of insert(). *)
From Verif Require Import Model.Bytes Model.Err Model.Field Model.Format Model.IO Model.BulkIO
  Model.Bucket Model.Pool Model.Recover Model.Create Model.Store Model.History Model.Throttle
  Spec SpecThrottle Proofs.BytesFacts Proofs.ThrottleFacts Props.Samples.
Open Scope N_scope.

(** C63.  However the clock runs and rates are computed, delays and set_burst() change neither
    the answers of calls nor the files. *)
Theorem C63_only_delays : forall per e a now l w x os,
  tlife per e a now l = (w, x, os) -> good_args a -> iter_ok e ->
  life e a (untimed l) = (w, option_map fst x, call_answers l os).
Proof. exact tlife_same. Qed.

(** C63.  A caller is made to sleep only when [may_sleep] says so: the [j]-th call. *)
Theorem C63_when : forall per e a now l w x os j,
  good_args a -> iter_ok e -> Forall (valid_op (ca_key_size a)) (untimed l) ->
  tlife per e a now l = (w, x, os) ->
  nth j (map snd os) false = true ->
  nth j (may_sleep (ca_block_size a) sempty [] (4 * 1024 * 1024) false l) false = true.
Proof. intros per e a now l w x os j Ha Hit Hv. exact (tlife_sleep per e a now l w x os j Ha Hit Hv). Qed.

(** C63.  In particular never before something has been saved since the database was opened. *)
Fixpoint no_flush (l : list tcall) : bool :=
  match l with
  | [] => true
  | TCall OpFlush _ _ :: _ => false
  | _ :: l' => no_flush l'
  end.
Theorem C63_not_at_first : forall per e a now l w x os,
  good_args a -> iter_ok e -> Forall (valid_op (ca_key_size a)) (untimed l) -> no_flush l = true ->
  tlife per e a now l = (w, x, os) -> forall j, nth j (map snd os) false = false.
Proof.
  intros per e a now l w x os Ha Hit Hv Hn Ht j. apply Bool.not_true_is_false. intros Hj.
  pose proof (C63_when _ _ _ _ _ _ _ _ j Ha Hit Hv Ht Hj) as X. revert X. clear - Hn.
  generalize (4 * 1024 * 1024) at 1. generalize sempty (@nil (bytes * bytes)). revert j.
  induction l as [|[[k v|k| |] t0 t1|n] l IH]; intros j m p burst; cbn [no_flush may_sleep] in *; try discriminate.
  - destruct j; discriminate.
  - destruct (m k); destruct j; cbn [nth andb]; try discriminate; apply IH; auto.
  - destruct j; cbn [nth]; [discriminate|]. apply IH; auto.
  - destruct j; cbn [nth]; [discriminate|]. apply IH; auto.
  - destruct j; cbn [nth]; [discriminate|]. apply IH; auto.
Qed.

(** The documentation of set_burst() (include/nudb/basic_store.hpp:430-441) speaks of the
    number of bytes that can be cached before callers are throttled.  This is refuted: here
    callers sleep with a burst size of 200 bytes although all keys and values ever inserted
    have 9 bytes.  The clock has 1000 ticks per second and arithmetic is exact. *)
Definition exact_rate (work t : N) : N := (work * 1000 + t - 1) / t.
Definition tiny_calls : list tcall :=
  [TBurst 200; TCall (OpInsert [1; 1] [1]) 10 0; TCall OpFlush 1000 2000;
   TCall (OpInsert [2; 2] [1]) 2001 0; TCall (OpInsert [3; 3] [1]) 2002 0].
Theorem C63_burst_refuted :
  exists w x os, tlife exact_rate sample_env sample_args 0 tiny_calls = (w, x, os) /\
    map snd os = [false; false; false; false; true].
Proof.
  destruct (tlife exact_rate sample_env sample_args 0 tiny_calls) as [[w x] os] eqn:E.
  assert (X : map snd (snd (tlife exact_rate sample_env sample_args 0 tiny_calls)) = [false; false; false; false; true])
    by (vm_compute; reflexivity).
  rewrite E in X. exists w, x, os. auto.
Qed.

(** A life with delays after the first flush, and none any more after the burst size has been
    raised and after the database has been opened again. *)
Definition timed_calls : list tcall :=
  [TBurst 300] ++ map (fun c => TCall c 100 0) (sample_inserts 6) ++
  [TCall OpFlush 1000 3000] ++ map (fun c => TCall c 3100 0) (skipn 6 (sample_inserts 10)) ++
  [TBurst 5000; TCall (OpInsert (sample_key 11) [1; 2]) 3200 0; TBurst 1; TCall (OpInsert (sample_key 12) [1; 2]) 100000 0;
   TCall OpReopen 100001 0; TBurst 1; TCall (OpInsert (sample_key 13) [1; 2]) 100002 0].
Example C63_sample :
  Forall (valid_op (ca_key_size sample_args)) (untimed timed_calls) /\
  let '(_, x, os) := tlife exact_rate sample_env sample_args 0 timed_calls in
  map snd os = repeat false 9 ++ [true; true; true] ++ repeat false 7 /\
  may_sleep (ca_block_size sample_args) sempty [] (4 * 1024 * 1024) false timed_calls =
    repeat false 8 ++ [true; true; true; true; false; false; false; true; false; false; false] /\ x <> None.
Proof. split; [repeat constructor|]. vm_compute. repeat split; discriminate. Qed.

Print Assumptions C63_only_delays.
Print Assumptions C63_when.
Print Assumptions C63_not_at_first.
Print Assumptions C63_burst_refuted.
