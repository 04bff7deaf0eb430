(** Lookups and inserts in which file operations fail. *)
From Verif Require Import Model.Bytes Model.Err Model.Field Model.Format Model.IO
  Model.BulkIO Model.Bucket Model.Pool Model.Recover Model.Create Model.Store Model.Visit Model.Verify Model.Crash
  Spec Model.History SpecErr SpecHeard SpecTrouble
  Proofs.BytesFacts Proofs.IOFacts Proofs.OpsFacts Proofs.StoreInv Proofs.OpenFacts Proofs.HistoryFacts Proofs.LifeFacts
  Proofs.DiskFacts Proofs.EventFacts Proofs.HeardFacts.

Lemma hands_on_cases ord {A} (p : prog (res A)) w S r w' S' : hands_on p ->
  fsteps ord p w S (Ret r) w' S' -> r = snd (run p w) \/ exists n, r = Er (EIO n).
Proof.
  intros H R. destruct r as [a|e].
  - left. rewrite (fails_too_run _ _ _ _ _ _ _ (hands_on_fails _ H) R). reflexivity.
  - assert (D : (exists n, e = EIO n) \/ forall n, e <> EIO n)
      by (destruct e; try (right; intros m X; discriminate X); left; eexists; reflexivity).
    destruct D as [[n ->]|N]; [right; exists n; reflexivity|left].
    rewrite (hands_on_run _ _ _ _ _ _ _ H R N). reflexivity.
Qed.

Lemma lived_snoc e a l w s c w' s' o : lived e a l w s -> do_op e s c w = (w', Some s', o) -> o <> OAborted ->
  lived e a (l ++ [c]) w' s'.
Proof.
  intros [os H] D N. exists (os ++ [o]). rewrite (life_app _ _ _ _ _ _ _ H). cbn [do_ops]. rewrite D.
  destruct o; first [reflexivity|destruct (N eq_refl)].
Qed.

Lemma worked_lived e a l w s : worked e a l w s -> lived e a l w s.
Proof.
  induction 1 as [w s H|l w s c w' s' o H IH D N|l w s k v S s' w' S' H IH R
                 |l w s S s' w' S' H IH R N|l w s S u w1 S1 S2 s' w' S' H IH R R2|l w s k v S n w' S' H IH R
                 |l w s k S n w' S' H IH R].
  - exact H.
  - exact (lived_snoc _ _ _ _ _ _ _ _ _ IH D N).
  - pose proof (fails_too_run _ _ _ _ _ _ _ (hands_on_fails _ (hands_on_same _ (h_insert e s k v))) R) as X.
    apply (lived_snoc _ _ _ _ _ _ _ _ OInserted IH); [|discriminate].
    unfold do_op. cbn [op_prog]. rewrite run_bind, X. reflexivity.
  - assert (X : run (store_flush e s) w = (w', s')).
    { apply (honest_run _ _ _ _ _ _ _ R s' eq_refl). intros n M. pose proof (heard_end _ _ _ _ (h_flush e s) M). congruence. }
    apply (lived_snoc _ _ _ _ _ _ _ _ ODone IH); [|discriminate].
    unfold do_op. cbn [op_prog]. rewrite run_bind, X. cbn [run]. rewrite N. reflexivity.
  - pose proof (fails_too_run _ _ _ _ _ _ _ (hands_on_fails _ (hands_on_same _ (h_close e s))) R) as X.
    pose proof (fails_too_run _ _ _ _ _ _ _ (fails_too_some _ (h_open e)) R2) as Y.
    apply (lived_snoc _ _ _ _ _ _ _ _ ODone IH); [|discriminate].
    unfold do_op. cbn [op_prog]. rewrite run_bind, X, run_bind, Y. reflexivity.
  - rewrite (reads_fsteps _ _ _ _ _ _ (reads_store_insert e s k v) R). exact IH.
  - rewrite (reads_fsteps _ _ _ _ _ _ (reads_store_fetch e s k) R). exact IH.
Qed.

Section Look.
Variables (e : env) (a : create_args) (l : list op) (w : world) (s : store).
Hypotheses (Hit : iter_ok e) (Ha : good_args a) (Hv : Forall (valid_op (ca_key_size a)) l) (Hl : lived e a l w s).

Lemma look_fetch k S r w' S' : blen k = ca_key_size a ->
  fsteps log_in_order (store_fetch e s k) w S (Ret r) w' S' ->
  w' = w /\ ((exists n, r = Er (EIO n)) \/
    r = match spec_final sempty l k with Some v => Ok v | None => Er key_not_found end).
Proof using All.
  intros Hk R. split; [exact (reads_fsteps _ _ _ _ _ _ (reads_store_fetch e s k) R)|].
  destruct (hands_on_cases _ _ _ _ _ _ _ (hands_on_same _ (h_fetch e s k)) R) as [X|X]; [right|left; exact X].
  destruct (lived_inv e a l w s Ha Hit Hv Hl) as (recs & T & Hi & _ & Hm & _).
  destruct (good_args_ok a Ha) as (Hp & _).
  rewrite X, (fetch_ok e _ Hp recs T s w k Hi Hk), Hm. reflexivity.
Qed.

Lemma look_insert k v S r w' S' : blen k = ca_key_size a -> 0 < blen v < 2 ^ 32 ->
  fsteps log_in_order (store_insert e s k v) w S (Ret r) w' S' ->
  w' = w /\ ((exists n, r = Er (EIO n)) \/
    match spec_final sempty l k with
    | Some _ => r = Er key_exists
    | None => exists s', r = Ok s' /\ lived e a (l ++ [OpInsert k v]) w s'
    end).
Proof using All.
  intros Hk [V1 V2] R. split; [exact (reads_fsteps _ _ _ _ _ _ (reads_store_insert e s k v) R)|].
  destruct (hands_on_cases _ _ _ _ _ _ _ (hands_on_same _ (h_insert e s k v)) R) as [X|X]; [right|left; exact X].
  destruct (lived_inv e a l w s Ha Hit Hv Hl) as (recs & T & Hi & _ & Hm & _).
  destruct (good_args_ok a Ha) as (Hp & _).
  change (2 ^ 32) with 4294967296 in V2.
  pose proof (insert_ok e _ Hp recs T s w k v Hi Hk V1 V2) as Y. rewrite <- Hm in Y.
  destruct (spec_final sempty l k); [rewrite X, Y; reflexivity|].
  destruct Y as (s' & Y & _). exists s'. split; [rewrite X, Y; reflexivity|].
  apply (lived_snoc _ _ _ _ _ _ _ _ OInserted Hl); [|discriminate].
  unfold do_op. cbn [op_prog]. rewrite run_bind, Y. reflexivity.
Qed.
End Look.

Lemma lived_worked e a l : forall w s, lived e a l w s -> worked e a l w s.
Proof.
  induction l as [|c l IH] using rev_ind; intros w s H; [constructor; exact H|].
  destruct H as [os H]. destruct (life_app_inv _ _ _ _ _ _ _ H) as (w1 & s1 & os1 & os2 & H1 & H2 & _).
  cbn [do_ops] in H2. destruct (do_op e s1 c w1) as [[w2 [s2|]] o] eqn:D; [|discriminate].
  assert (X : o <> OAborted /\ w2 = w /\ s2 = s)
    by (destruct o; first [discriminate H2|split; [discriminate|split; congruence]]).
  destruct X as (N & -> & ->).
  apply (wk_call _ _ _ w1 s1 _ _ _ o); [apply IH; exists os1; exact H1|exact D|exact N].
Qed.
