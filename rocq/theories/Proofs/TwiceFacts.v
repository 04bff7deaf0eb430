(** The statements of Props/TwiceProps.v. *)
From Verif Require Import Model.Bytes Model.Err Model.Field Model.Format Model.IO Model.BulkIO Model.Bucket Model.Pool
  Model.Recover Model.Create Model.Store Model.History Model.Crash Model.Events Model.ObjectLife Spec
  Proofs.BytesFacts Proofs.IOFacts Proofs.Table Proofs.StoreInv Proofs.OpenFacts Proofs.HistoryFacts Proofs.LifeFacts
  Proofs.MapFacts Proofs.DiskFacts.

Lemma second_open e a l w s : good_args a -> iter_ok e -> Forall (valid_op (ca_key_size a)) l -> lived e a l w s ->
  exists w2 s2, run (store_open e) w = (w2, Ok s2) /\ same_files w2 w /\
    (forall k, blen k = ca_key_size a -> snd (run (store_fetch e s2 k) w2) =
       match spec_durable sempty sempty l k with Some v => Ok v | None => Er key_not_found end) /\
    forall k v1 v2, blen k = ca_key_size a -> 0 < blen v1 < 2 ^ 32 -> 0 < blen v2 < 2 ^ 32 ->
      spec_final sempty l k = None ->
      insert_out (snd (run (store_insert e s k v1) w2)) = OInserted /\
      insert_out (snd (run (store_insert e s2 k v2) w2)) = OInserted.
Proof.
  intros Ha Hit Hv Hl.
  destruct (lived_more e a l w s Ha Hit Hv Hl) as (recs & T & _ & Hi & _ & Hm & Hd & _).
  destruct (good_args_ok a Ha) as (Hp & _).
  destruct (open_ok e (dbp_of a) Hp recs T w (si_disk _ _ _ _ _ _ Hi)) as [Ho Hi2].
  { right. exists []. split; [exact (si_log _ _ _ _ _ _ Hi)|reflexivity]. }
  set (s2 := Store _ _ _ _ _ _ _ _ _) in *. set (w2 := wset w FLog (Some [])) in *.
  assert (Ew : w2 = w).
  { pose proof (si_log _ _ _ _ _ _ Hi) as X. unfold w2. clear -X. destruct w as [wd wk wl]. change (wl = Some []) in X. rewrite X. reflexivity. }
  exists w2, s2. split; [exact Ho|]. split; [split; reflexivity|].
  assert (A : forall k, abs recs s2 k = spec_durable sempty sempty l k).
  { intros k. rewrite Hd. reflexivity. }
  rewrite pow32. split.
  - intros k Hk. rewrite (fetch_ok e _ Hp _ _ _ _ k Hi2 Hk), A. reflexivity.
  - intros k v1 v2 Hk [V1 V1'] [V2 V2'] F1.
    assert (F2 : spec_durable sempty sempty l k = None).
    { rewrite Hd. rewrite Hm in F1. unfold abs in F1. destruct (pool_find (st_p1 s) k); [discriminate|exact F1]. }
    pose proof (insert_ok e _ Hp _ _ _ _ k v2 Hi2 Hk V2 V2') as X2. rewrite A, F2 in X2. destruct X2 as (? & -> & _).
    rewrite Ew. pose proof (insert_ok e _ Hp _ _ _ _ k v1 Hi Hk V1 V1') as X1. rewrite <- Hm, F1 in X1. destruct X1 as (? & -> & _).
    split; reflexivity.
Qed.

Lemma refused_win32 t b h v : In (v, FDat) h -> exists o, so_do_open false t (Sobj false b h) = Some (o, false).
Proof.
  intros H. assert (E : existsb (fun x => same_file (snd x) FDat) h = true).
  { apply existsb_exists. exists (v, FDat). split; [exact H|reflexivity]. }
  unfold so_do_open. cbn [o_open o_some o_held]. unfold recover_files, fopen at 1. cbn [negb andb]. rewrite E.
  eexists. reflexivity.
Qed.
