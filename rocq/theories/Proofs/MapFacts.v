(** Consequences of the refinement for callers. *)
From Verif Require Import Model.Bytes Model.Err Model.Field Model.Format Model.IO
  Model.BulkIO Model.Bucket Model.Pool Model.Recover Model.Create Model.Store Spec Model.History
  Proofs.BytesFacts Proofs.FieldFacts Proofs.IOFacts Proofs.PoolFacts Proofs.BucketFacts
  Proofs.BulkFacts Proofs.HashFacts Proofs.Table Proofs.Lookup Proofs.SplitFacts
  Proofs.CommitFacts Proofs.CommitInv Proofs.CommitRun Proofs.HeaderFacts Proofs.StoreInv
  Proofs.OpenFacts Proofs.HistoryFacts Proofs.LifeFacts.

Lemma answers_spec e a l :
  iter_ok e -> good_args a -> Forall (valid_op (ca_key_size a)) l -> within_limit e a l ->
  answers e a l = spec_outs sempty l.
Proof.
  intros Hit Ha Hv Hs. unfold answers, within_limit in *.
  destruct (lived_ok e a l Ha Hit Hv) as [(recs & T & s & w & -> & _)|[Hn (w & n & _ & Hl & X)]]; [reflexivity|].
  rewrite X in Hs. cbn [fst] in Hs. tauto.
Qed.

Lemma answers_prefix e a l :
  iter_ok e -> good_args a -> Forall (valid_op (ca_key_size a)) l ->
  answers e a l = spec_outs sempty l \/
  ~ within_limit e a l /\ exists n, (n < length l)%nat /\
    answers e a l = firstn n (spec_outs sempty l) ++ [OAborted].
Proof.
  intros Hit Ha Hv. unfold answers, within_limit.
  destruct (lived_ok e a l Ha Hit Hv) as [(recs & T & s & w & -> & _)|[Hn (w & n & Hl & Hnl & ->)]];
    [left; reflexivity|right]. cbn [fst snd]. split; [tauto|eauto].
Qed.

Lemma pow32 : 2 ^ 32 = 4294967296. Proof. reflexivity. Qed.

Lemma duplicate_insert e a l w s k v v' :
  iter_ok e -> good_args a -> Forall (valid_op (ca_key_size a)) l -> lived e a l w s ->
  spec_final sempty l k = Some v' ->
  blen k = ca_key_size a -> 0 < blen v < 2 ^ 32 ->
  run (store_insert e s k v) w = (w, Er key_exists).
Proof.
  intros Hit Ha Hv Hl Hk Hks [Hv1 Hv2]. rewrite pow32 in Hv2.
  destruct (lived_inv e a l w s Ha Hit Hv Hl) as (recs & T & Hi & _ & Hm & _).
  destruct (good_args_ok a Ha) as (Hp & _).
  pose proof (insert_ok e _ Hp recs T s w k v Hi Hks Hv1 Hv2) as X.
  rewrite <- Hm, Hk in X. exact X.
Qed.

Lemma spec_final_none l : forall m k, m k = None -> (forall v, ~ In (OpInsert k v) l) ->
  spec_final m l k = None.
Proof.
  induction l as [|c l IH]; intros m k Hm Hn; cbn [spec_final]; auto.
  apply IH; [|intros v Hin; eapply Hn; right; eauto].
  destruct c as [k' v|k'| |]; simpl; auto.
  - destruct (m k') eqn:E; simpl; auto. unfold sput. destruct (beq k' k) eqn:Eb; auto.
    apply beq_eq in Eb. subst. exfalso. eapply Hn. left. reflexivity.
  - destruct (m k'); auto.
Qed.

Lemma no_false_hits e a l w s k :
  iter_ok e -> good_args a -> Forall (valid_op (ca_key_size a)) l -> lived e a l w s ->
  (forall v, ~ In (OpInsert k v) l) -> blen k = ca_key_size a ->
  run (store_fetch e s k) w = (w, Er key_not_found).
Proof.
  intros Hit Ha Hv Hl Hn Hks.
  destruct (lived_inv e a l w s Ha Hit Hv Hl) as (recs & T & Hi & _ & Hm & _).
  destruct (good_args_ok a Ha) as (Hp & _).
  rewrite (fetch_ok e _ Hp recs T s w k Hi Hks), <- Hm, spec_final_none; auto.
Qed.

Lemma spec_outs_app l1 : forall m l2,
  spec_outs m (l1 ++ l2) = spec_outs m l1 ++ spec_outs (spec_final m l1) l2.
Proof.
  induction l1 as [|c l1 IH]; intros m l2; [reflexivity|].
  cbn [app spec_outs spec_final]. destruct (spec_step m c) as [m' o]. simpl. f_equal. apply IH.
Qed.

Lemma spec_outs_length l : forall m, length (spec_outs m l) = length l.
Proof.
  induction l as [|c l IH]; intros m; [reflexivity|].
  cbn [spec_outs]. destruct (spec_step m c). simpl. auto.
Qed.

Lemma inserts_app l1 l2 : inserts (l1 ++ l2) = inserts l1 + inserts l2.
Proof. induction l1; simpl; lia. Qed.
Lemma insert_bytes_app l1 l2 : insert_bytes (l1 ++ l2) = insert_bytes l1 + insert_bytes l2.
Proof. induction l1 as [|c l1 IH]; cbn [app insert_bytes]; [reflexivity|]. rewrite IH. lia. Qed.

Lemma flush_invisible e a l1 l2 :
  iter_ok e -> good_args a -> Forall (valid_op (ca_key_size a)) (l1 ++ l2) ->
  within_limit e a (l1 ++ l2) -> within_limit e a (l1 ++ OpFlush :: l2) ->
  exists o1 o2, length o1 = length l1 /\
    answers e a (l1 ++ l2) = o1 ++ o2 /\
    answers e a (l1 ++ OpFlush :: l2) = o1 ++ ODone :: o2.
Proof.
  intros Hit Ha Hv Hs Hs'. exists (spec_outs sempty l1), (spec_outs (spec_final sempty l1) l2).
  splits.
  - apply spec_outs_length.
  - rewrite answers_spec by auto. apply spec_outs_app.
  - rewrite answers_spec; auto.
    + rewrite spec_outs_app. reflexivity.
    + apply Forall_app in Hv as [Hv1 Hv2]. apply Forall_app. split; auto. constructor; simpl; auto.
Qed.

Section Same.
Variables (e : env) (p : dbp).
Hypothesis Hp : dbp_ok p.
Lemma same_answers recs T s w recs' T' s' w' :
  sinv e p recs T s w -> sinv e p recs' T' s' w' -> (forall k, abs recs' s' k = abs recs s k) ->
  (forall k, blen k = db_key_size p ->
     snd (run (store_fetch e s' k) w') = snd (run (store_fetch e s k) w)) /\
  (forall k v, blen k = db_key_size p -> 0 < blen v < 2 ^ 32 ->
     insert_out (snd (run (store_insert e s' k v) w')) =
     insert_out (snd (run (store_insert e s k v) w))).
Proof.
  intros H H' Ha. rewrite pow32. split.
  - intros k Hk. rewrite (fetch_ok e p Hp _ _ _ _ k H Hk), (fetch_ok e p Hp _ _ _ _ k H' Hk), Ha. reflexivity.
  - intros k v Hk [Hv1 Hv2].
    pose proof (insert_ok e p Hp _ _ _ _ k v H Hk Hv1 Hv2) as X.
    pose proof (insert_ok e p Hp _ _ _ _ k v H' Hk Hv1 Hv2) as X'. rewrite Ha in X'.
    destruct (abs recs s k).
    + rewrite X, X'. reflexivity.
    + destruct X as (? & -> & _), X' as (? & -> & _). reflexivity.
Qed.
End Same.

Lemma small_not_long l : small_history l -> ~ too_long (inserts l) (insert_bytes l).
Proof. unfold small_history, too_long. lia. Qed.

Lemma flush_state e a l w s :
  iter_ok e -> good_args a -> Forall (valid_op (ca_key_size a)) l -> lived e a l w s ->
  exists w' s', run (store_flush e s) w = (w', s') /\
    (st_ec s' = None /\
     (forall k, blen k = ca_key_size a ->
        snd (run (store_fetch e s' k) w') = snd (run (store_fetch e s k) w)) /\
     (forall k v, blen k = ca_key_size a -> 0 < blen v < 2 ^ 32 ->
        insert_out (snd (run (store_insert e s' k v) w')) =
        insert_out (snd (run (store_insert e s k v) w))) \/
     st_ec s' = Some EAssert /\ near_limit w' /\ ~ small_history l).
Proof.
  intros Hit Ha Hv Hl.
  destruct (lived_inv e a l w s Ha Hit Hv Hl) as (recs & T & Hi & Hz & Hm & _).
  destruct (good_args_ok a Ha) as (Hp & _).
  destruct (flush_ok e _ Hp Hit _ _ _ _ _ _ Hi Hz)
    as [(x & T' & s' & w' & Hr & Hi' & _ & _ & _ & Hab & _)|[Hb (w' & s' & Hr & He & Hnl)]];
    exists w', s'; (split; [exact Hr|]).
  - left. split; [apply Hi'|]. exact (same_answers e _ Hp _ _ _ _ _ _ _ _ Hi Hi' Hab).
  - right. split; [exact He|]. split; [exact Hnl|]. intros X. exact (small_not_long _ X Hb).
Qed.

Lemma reopen_preserves e a l w s :
  iter_ok e -> good_args a -> Forall (valid_op (ca_key_size a)) l -> lived e a l w s ->
  (exists w1 w2 s', run (store_close e s) w = (w1, Ok tt) /\ w_log w1 = None /\
     run (store_open e) w1 = (w2, Ok s') /\
     (forall k, blen k = ca_key_size a ->
        snd (run (store_fetch e s' k) w2) = snd (run (store_fetch e s k) w)) /\
     (forall k v, blen k = ca_key_size a -> 0 < blen v < 2 ^ 32 ->
        insert_out (snd (run (store_insert e s' k v) w2)) =
        insert_out (snd (run (store_insert e s k v) w)))) \/
  exists w1, run (store_close e s) w = (w1, Er EAssert) /\ near_limit w1 /\ ~ small_history l.
Proof.
  intros Hit Ha Hv Hl.
  destruct (lived_inv e a l w s Ha Hit Hv Hl) as (recs & T & Hi & Hz & Hm & _).
  destruct (good_args_ok a Ha) as (Hp & _).
  destruct (flush_ok e _ Hp Hit _ _ _ _ _ _ Hi Hz)
    as [(x & T' & s' & w' & Hr & Hi' & He & _ & _ & Hab & _)|[Hb (w' & s' & Hr & He & Hnl)]].
  - left. destruct (open_ok e (dbp_of a) Hp (recs ++ x) T' (wset w' FLog None)) as [Ho Hi2].
    { apply disk_wlog, Hi'. }
    { left. apply wget_wset_same. }
    exists (wset w' FLog None). do 2 eexists. split; [|split; [|split; [exact Ho|]]].
    + unfold store_close. rewrite (run_bind_eq _ _ _ _ _ Hr), (si_ec _ _ _ _ _ _ Hi').
      apply (run_erase FLog w' _ (si_log _ _ _ _ _ _ Hi')).
    + reflexivity.
    + apply (same_answers e _ Hp _ _ _ _ _ _ _ _ Hi Hi2).
      intros k. rewrite <- Hab. unfold abs. cbn [st_p1]. change (pool_find pool_empty k) with (@None pelem).
      unfold pool_find. rewrite He. reflexivity.
  - right. exists w'. split; [|split; [exact Hnl|intros X; exact (small_not_long _ X Hb)]].
    unfold store_close. rewrite (run_bind_eq _ _ _ _ _ Hr), He. reflexivity.
Qed.
