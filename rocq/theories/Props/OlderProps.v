(** C75: an older key file with a newer data file. *)
From Verif Require Import Model.Bytes Model.Err Model.Field Model.Format Model.IO Model.BulkIO Model.Bucket Model.Pool
  Model.Recover Model.Create Model.Store Model.History Model.Crash Model.Visit Model.Verify Spec
  Proofs.OlderFacts Props.BesideProps Props.Samples.

(** The key file is copied while no flush is in progress, at the end of a life [l].  The life goes
    on with [l2], and the data file is copied later, at any point of a flush.  The two copies, with an
    empty log file or none, open as a database that has the pairs saved at the end of [l], and no
    others. *)
Theorem C75_older_key : forall e a l l2 w s w2 s2 S q w3 S3 d lg,
  iter_ok e -> good_args a -> Forall (valid_op (ca_key_size a)) (l ++ l2) ->
  lived e a l w s -> lived e a (l ++ l2) w2 s2 ->
  fsteps log_in_order (store_flush e s2) w2 S q w3 S3 -> w_dat w3 = Some d -> lg = None \/ lg = Some [] ->
  let w1 := World (Some d) (w_key w) (Some []) in
  exists s1, run (store_open e) (World (Some d) (w_key w) lg) = (w1, Ok s1) /\
    forall k, blen k = ca_key_size a -> run (store_fetch e s1 k) w1 =
      (w1, match spec_durable sempty sempty l k with Some v => Ok v | None => Er key_not_found end).
Proof. exact older_key. Qed.

(** What was appended does not matter: the copy of the data file may end anywhere, or with anything. *)
Theorem C75_any_tail : forall e a l w s d x lg,
  iter_ok e -> good_args a -> Forall (valid_op (ca_key_size a)) l ->
  lived e a l w s -> w_dat w = Some d -> lg = None \/ lg = Some [] ->
  let w1 := World (Some (d ++ x)) (w_key w) (Some []) in
  exists s1, run (store_open e) (World (Some (d ++ x)) (w_key w) lg) = (w1, Ok s1) /\
    forall k, blen k = ca_key_size a -> run (store_fetch e s1 k) w1 =
      (w1, match spec_durable sempty sempty l k with Some v => Ok v | None => Er key_not_found end).
Proof. exact grown_data. Qed.

Definition mixed (l l2 : list op) (newer_key : bool) : option world :=
  match life sample_env sample_args l, life sample_env sample_args l2 with
  | (w, Some _, _), (w2, Some _, _) =>
    Some (if newer_key then World (w_dat w) (w_key w2) None else World (w_dat w2) (w_key w) None)
  | _, _ => None
  end.
Definition looked (w : option world) (ks : list N) : option (list (res bytes)) :=
  match w with
  | Some w =>
    match run (store_open sample_env) w with
    | (w1, Ok s1) => Some (map (fun i => snd (run (store_fetch sample_env s1 (sample_key i)) w1)) ks)
    | _ => None
    end
  | None => None
  end.

(** ** The order matters *)

(** The data file copied first and the key file after a flush: a pair saved before both copies (1) cannot
    be fetched. *)
Lemma mixed_lived l l2 n w : mixed l l2 n = Some w -> exists w1 s1 w2 s2,
  lived sample_env sample_args l w1 s1 /\ lived sample_env sample_args l2 w2 s2 /\
  w = (if n then World (w_dat w1) (w_key w2) None else World (w_dat w2) (w_key w1) None).
Proof.
  unfold mixed, lived. destruct (life sample_env sample_args l) as [[w1 [s1|]] os1]; [|discriminate].
  destruct (life sample_env sample_args l2) as [[w2 [s2|]] os2]; [|discriminate].
  intros H. exists w1, s1, w2, s2. split; [exists os1; reflexivity|]. split; [exists os2; reflexivity|].
  destruct n; congruence.
Qed.

Theorem C75_order_matters : exists w s w2 s2,
  lived sample_env sample_args three_more w s /\ lived sample_env sample_args (three_more ++ [OpFlush]) w2 s2 /\
  spec_durable sempty sempty three_more (sample_key 1) = Some (sample_val 1) /\
  exists w1 s1, run (store_open sample_env) (World (w_dat w) (w_key w2) None) = (w1, Ok s1) /\
    snd (run (store_fetch sample_env s1 (sample_key 1)) w1) = Er short_read.
Proof.
  assert (X : looked (mixed three_more (three_more ++ [OpFlush]) true) [1] = Some [Er short_read]) by (vm_compute; reflexivity).
  destruct (mixed three_more (three_more ++ [OpFlush]) true) as [w|] eqn:E; [|discriminate X].
  apply mixed_lived in E as (w1 & s1 & w2 & s2 & L1 & L2 & ->). exists w1, s1, w2, s2.
  split; [exact L1|]. split; [exact L2|]. split; [vm_compute; reflexivity|].
  unfold looked in X. cbv iota in X.
  destruct (run (store_open sample_env) (World (w_dat w1) (w_key w2) None)) as [w3 [s3|er]]; [|discriminate X].
  exists w3, s3. split; [reflexivity|]. cbn [map] in X.
  assert (Y : forall A (x y : A), Some [x] = Some [y] -> x = y) by (intros A x y H; congruence).
  exact (Y _ _ _ X).
Qed.

(** ** A case *)

(** The key file from before the flush of three pairs, the data file from after it: the pairs
    saved before are found, one saved by the flush (81) is not. *)
Example C75_case :
  looked (mixed three_more (three_more ++ [OpFlush]) false) [1; 5; 29; 81]
    = Some [Ok (sample_val 1); Ok (sample_val 5); Ok (sample_val 29); Er key_not_found] /\
  (exists w s, lived sample_env sample_args three_more w s) /\
  (exists w s, lived sample_env sample_args (three_more ++ [OpFlush]) w s) /\
  good_args sample_args /\ iter_ok sample_env /\
  Forall (valid_op (ca_key_size sample_args)) (three_more ++ [OpFlush]).
Proof.
  split; [vm_compute; reflexivity|].
  destruct C72_case as ((w & s & _ & H & _) & H1 & H2 & H3 & H4 & _). split; [exists w, s; exact H|].
  split; [exact H1|]. split; [exact H2|]. split; [exact H3|].
  apply Forall_app. split; [exact H4|]. constructor; [exact I|constructor].
Qed.

Print Assumptions C75_older_key.
Print Assumptions C75_any_tail.
Print Assumptions C75_order_matters.
