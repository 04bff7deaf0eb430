(** C73: a copy of the data file as a backup. *)
From Verif Require Import Model.Bytes Model.Err Model.Field Model.Format Model.IO Model.BulkIO Model.Bucket Model.Pool
  Model.Recover Model.Create Model.Store Model.History Model.Crash Model.Events Model.Visit Model.Rekey Model.RekeyLife
  Model.Beside Model.Backup Spec SpecVisit Proofs.BesideFacts Proofs.BackupFacts Props.BesideProps Props.RekeyProps Props.Samples.

(** While a store with any past [l] carries out a flush, some program copies the data file: it
    takes the size and reads that many bytes, in any pieces, between any operations of the flush.
    Then rekey() of the copy alone, with any arguments, succeeds, open() succeeds, and the
    store finds all pairs saved before the flush, some of those being saved, and no others; the
    values are right.  (Or rekey() aborts because the data file has come near its limit.) *)
Theorem C73_backup_partial : forall e a l w s w' s' cut x r,
  iter_ok e -> good_args a -> Forall (valid_op (ca_key_size a)) l -> lived e a l w s ->
  lived e a (l ++ [OpFlush]) w' s' -> whole_cut cut -> good_rekey r ->
  beside false (copy cut) (store_flush e s) w x ->
  exists d, x = Ok d /\
  ((exists w1 t w2 s2 new rest, run (rekey e r) (World (Some d) None None) = (w1, Ok t) /\
      run (store_open e) w1 = (w2, Ok s2) /\
      let W := written sempty [] [] l ++ new in
      W ++ rest = written sempty [] [] (l ++ [OpFlush]) /\
      (forall k v, In (k, v) W -> snd (run (store_fetch e s2 k) w2) = Ok v) /\
      (forall k, blen k = ca_key_size a -> ~ In k (map fst W) -> snd (run (store_fetch e s2 k) w2) = Er key_not_found)) \/
   (exists w1, run (rekey e r) (World (Some d) None None) = (w1, Er EAssert) /\ near_limit w1)).
Proof. exact backup_beside. Qed.

(** ** When a write is seen in part *)

(** Pieces of 50 bytes. *)
Definition by_50 (n : N) : list N := repeat 50 (N.to_nat (n / 50)) ++ [n mod 50].
Lemma by_50_whole : whole_cut by_50.
Proof.
  intros n. unfold by_50. rewrite (N.div_mod n 50) at 3 by discriminate.
  assert (E : forall m y, fold_right N.add 0 (repeat 50 m ++ [y]) = 50 * N.of_nat m + y).
  { induction m as [|m IH]; intros y; cbn [repeat app fold_right]; [lia|]. rewrite IH. lia. }
  rewrite E, N2Nat.id. reflexivity.
Qed.

(** What rekey() and recover() say of the copy, and whether recover() leaves only the copy. *)
Definition torn_copy (n : N) : option (option err * option err * bool) :=
  match life sample_env sample_args three_more with
  | (w, Some s, _) =>
    match in_part n (copy by_50) (store_flush sample_env s) w with
    | Some (Ok d) =>
      let '(w1, r) := run (rekey sample_env sample_rekey) (World (Some d) None None) in
      let '(w2, r') := run (recover sample_env) w1 in
      let e {A} (r : res A) := match r with Ok _ => None | Er er => Some er end in
      Some (e r, e r', obeq (w_dat w2) (Some d) && obeq (w_key w2) None && obeq (w_log w2) None)
    | _ => None
    end
  | _ => None
  end.

Lemma torn_copy_beside n er r b : torn_copy n = Some (Some er, r, b) -> exists w s d w1,
  lived sample_env sample_args three_more w s /\ beside true (copy by_50) (store_flush sample_env s) w (Ok d) /\
  run (rekey sample_env sample_rekey) (World (Some d) None None) = (w1, Er er).
Proof.
  unfold torn_copy, lived. destruct (life sample_env sample_args three_more) as [[w [s|]] os]; [|discriminate].
  destruct (in_part n (copy by_50) (store_flush sample_env s) w) as [[d|er']|] eqn:E; try discriminate.
  destruct (run (rekey sample_env sample_rekey) (World (Some d) None None)) as [w1 [t|er']] eqn:R;
    destruct (run (recover sample_env) w1) as [w2 r']; intros H; [discriminate H|].
  assert (X : er' = er) by (injection H; auto). subst er'. exists w, s, d, w1. split; [eauto|]. split; [|exact R].
  apply in_part_beside with (n := n). exact E.
Qed.

(** If the copy ends in the middle of a record, rekey() reports short_read: the saved pairs, all in the
    copy, cannot be had with rekey(). *)
Theorem C73_torn_copy_refuted : exists w s d w1,
  lived sample_env sample_args three_more w s /\ beside true (copy by_50) (store_flush sample_env s) w (Ok d) /\
  run (rekey sample_env sample_rekey) (World (Some d) None None) = (w1, Er short_read).
Proof. apply (torn_copy_beside 11 _ None true). vm_compute. reflexivity. Qed.

(** ** A case *)

(** The copy is made after the first write to the data file; the database made of it has the pair
    saved before (5) and the one being saved (82), and no other (84). *)
Definition copied : option (list (res bytes)) :=
  match life sample_env sample_args three_more with
  | (w, Some s, _) =>
    match to_data (store_flush sample_env s) w with
    | Some (ap, off, d, k, w1) =>
      match snd (run (copy by_50) (fst (exec (IoWrite FDat ap off d) w1))) with
      | Ok d =>
        match run (rekey sample_env sample_rekey) (World (Some d) None None) with
        | (w2, Ok _) =>
          match run (store_open sample_env) w2 with
          | (w3, Ok s3) => Some (map (fun i => snd (run (store_fetch sample_env s3 (sample_key i)) w3)) [5; 82; 84])
          | _ => None
          end
        | _ => None
        end
      | _ => None
      end
    | None => None
    end
  | _ => None
  end.
Example C73_case :
  copied = Some [Ok (sample_val 5); Ok (sample_val 82); Er key_not_found] /\ whole_cut by_50 /\ good_rekey sample_rekey /\
  (exists w s, lived sample_env sample_args three_more w s) /\
  (exists w' s', lived sample_env sample_args (three_more ++ [OpFlush]) w' s') /\
  good_args sample_args /\ iter_ok sample_env /\ Forall (valid_op (ca_key_size sample_args)) three_more.
Proof.
  split; [vm_compute; reflexivity|]. split; [exact by_50_whole|]. split; [apply sample_rekey_good|].
  destruct C72_case as ((w & s & _ & H & _) & H1 & H2 & H3 & H4 & _). split; [exists w, s; exact H|].
  split; [exact H1|]. split; [exact H2|]. split; [exact H3|exact H4].
Qed.

(** For every state of the files the flush goes through there is such a copy. *)
Example C73_some_copy : forall e s w cut, beside false (copy cut) (store_flush e s) w (snd (run (copy cut) w)).
Proof. intros. apply beside_at_once. Qed.

Print Assumptions C73_backup_partial.
Print Assumptions C73_torn_copy_refuted.
