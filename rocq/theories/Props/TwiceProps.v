(** C71: opening a database that is open. *)
From Verif Require Import Model.Bytes Model.Err Model.Field Model.Format Model.IO Model.BulkIO Model.Bucket Model.Pool
  Model.Recover Model.Create Model.Store Model.History Model.Crash Model.Events Model.ObjectLife Spec
  Proofs.TwiceFacts Props.Samples.

(** With win32_file open() of a database fails while its data file is open in the process, be it
    by another store. *)
Theorem C71_win32 : forall t b h v, In (v, FDat) h -> exists o, so_do_open false t (Sobj false b h) = Some (o, false).
Proof. exact refused_win32. Qed.

(** With posix_file nothing stops it: while a store [s] with any past is open, open() in another
    store succeeds.  That store finds what has been flushed and nothing else, and both then
    take the same key, with two values. *)
Theorem C71_second_open_refuted : forall e a l w s,
  good_args a -> iter_ok e -> Forall (valid_op (ca_key_size a)) l -> lived e a l w s ->
  exists w2 s2, run (store_open e) w = (w2, Ok s2) /\ same_files w2 w /\
    (forall k, blen k = ca_key_size a -> snd (run (store_fetch e s2 k) w2) =
       match spec_durable sempty sempty l k with Some v => Ok v | None => Er key_not_found end) /\
    forall k v1 v2, blen k = ca_key_size a -> 0 < blen v1 < 2 ^ 32 -> 0 < blen v2 < 2 ^ 32 ->
      spec_final sempty l k = None ->
      insert_out (snd (run (store_insert e s k v1) w2)) = OInserted /\
      insert_out (snd (run (store_insert e s2 k v2) w2)) = OInserted.
Proof. exact second_open. Qed.

(** ** A pair that was saved is lost *)

(** A database with three pairs saved. *)
Definition few : list op := sample_inserts 3 ++ [OpFlush].
Definition first_calls : list op :=
  map (fun i => OpInsert (sample_key i) (sample_val i)) [10; 11; 12; 13; 14; 15] ++ [OpFlush].
Definition second_calls : list op := map (fun i => OpInsert (sample_key i) (sample_val i)) [60; 61] ++ [OpFlush].

(** The first store inserts and flushes, then the second does; then the database is opened anew.
    (With posix_file the first store's log has been unlinked by the second open(), and it writes
    to it all the same; nothing reads either log here.) *)
Definition both (k : bytes) : option (list out * list out * res bytes * res bytes) :=
  match life sample_env sample_args few with
  | (w, Some s1, _) =>
    match run (store_open sample_env) w with
    | (w2, Ok s2) =>
      match do_ops sample_env s1 first_calls w2 with
      | (w3, Some s1', o1) =>
        match do_ops sample_env s2 second_calls w3 with
        | (w4, Some s2', o2) =>
          match run (store_open sample_env) w4 with
          | (w5, Ok s3) => Some (o1, o2, snd (run (store_fetch sample_env s1' k) w3), snd (run (store_fetch sample_env s3 k) w5))
          | _ => None
          end
        | _ => None
        end
      | _ => None
      end
    | _ => None
    end
  | _ => None
  end.

(** All calls report success; the key, saved before the second store was opened, is found until
    the second store flushes, and never again. *)
Theorem C71_saved_pair_lost_refuted :
  spec_durable sempty sempty few (sample_key 2) = Some (sample_val 2) /\
  both (sample_key 2) = Some (repeat OInserted 6 ++ [ODone], repeat OInserted 2 ++ [ODone],
    Ok (sample_val 2), Er key_not_found).
Proof. vm_compute. split; reflexivity. Qed.

(** ** Cases *)
Example C71_win32_case : exists o o',
  so_do_open false (OTries (Tries AOpens false AOpens false AMissing false) (Tries AOpens false AOpens false AOpens false) false)
    so_new = Some (o, true) /\
  so_do_open false (OTries (Tries AOpens false AOpens false AOpens false) (Tries AOpens false AOpens false AOpens false) false)
    (Sobj false false (o_held o)) = Some (o', false) /\ In (VMember, FDat) (o_held o).
Proof. do 2 eexists. split; [reflexivity|]. split; [reflexivity|]. right. right. left. reflexivity. Qed.

Example C71_posix_case : exists w s, lived sample_env sample_args sample_life w s /\
  good_args sample_args /\ iter_ok sample_env /\ Forall (valid_op (ca_key_size sample_args)) sample_life /\
  spec_final sempty sample_life (sample_key 90) = None /\ spec_final sempty sample_life (sample_key 78) = Some [8] /\
  spec_durable sempty sempty sample_life (sample_key 78) = None /\
  exists w2 s2, run (store_open sample_env) w = (w2, Ok s2) /\ snd (run (store_fetch sample_env s2 (sample_key 78)) w2) = Er key_not_found.
Proof.
  destruct sample_lived as (w & s & Hl & _). exists w, s. split; [exact Hl|]. split; [exact sample_args_good|].
  split; [exact sample_env_ok|]. split; [exact sample_life_valid|]. split; [vm_compute; reflexivity|].
  split; [vm_compute; reflexivity|]. assert (D : spec_durable sempty sempty sample_life (sample_key 78) = None) by (vm_compute; reflexivity).
  split; [exact D|].
  destruct (C71_second_open_refuted _ _ _ _ _ sample_args_good sample_env_ok sample_life_valid Hl) as (w2 & s2 & E & _ & F & _).
  exists w2, s2. split; [exact E|]. rewrite (F (sample_key 78) eq_refl), D. reflexivity.
Qed.

Print Assumptions C71_win32.
Print Assumptions C71_second_open_refuted.
Print Assumptions C71_saved_pair_lost_refuted.
