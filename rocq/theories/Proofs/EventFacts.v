(** Histories with stops. *)
From Verif Require Import Model.Bytes Model.Err Model.Field Model.Format Model.IO
  Model.BulkIO Model.Bucket Model.Pool Model.Recover Model.Create Model.Store Spec SpecCrash Model.History
  Model.Crash Model.Events
  Proofs.BytesFacts Proofs.FieldFacts Proofs.IOFacts Proofs.PoolFacts Proofs.BucketFacts
  Proofs.BulkFacts Proofs.HashFacts Proofs.Table Proofs.Lookup Proofs.SplitFacts
  Proofs.CommitFacts Proofs.CommitInv Proofs.CommitRun Proofs.HeaderFacts Proofs.StoreInv
  Proofs.OpenFacts Proofs.HistoryFacts Proofs.LifeFacts Proofs.SafeFacts Proofs.CommitOps Proofs.CrashFacts
  Proofs.RecoverFacts.

Local Opaque lhead dat0 key0.
Notation ord := log_in_order.

Lemma reads_loop {St T} (step : St -> prog (St + res T)) s : (forall s, reads (step s)) -> reads (loop step s).
Proof.
  intros Hs. apply (ao_weaken io_pure io_pure (okres anyres)); auto; [|intros; exact I].
  apply (ao_loop io_pure anyres anyres); [|exact I]. intros s' _.
  eapply ao_weaken; [apply Hs|auto|]. intros [x|[x|er]] _; exact I.
Qed.
Lemma reads_bk_read x f o : reads (bk_read x f o).
Proof.
  unfold bk_read. apply reads_ebind; [apply reads_read|]. intros.
  destruct (_ <? _); apply reads_ret.
Qed.
Lemma reads_fetch_scan fuel ks h k b i : reads (fetch_scan fuel ks h k b i).
Proof.
  revert i. induction fuel as [|fuel IH]; intros i; cbn [fetch_scan]; [apply reads_ret|].
  destruct (negb _); [apply reads_ret|]. apply reads_ebind; [apply reads_read|]. intros d.
  destruct (beq _ _); [apply reads_ret|apply IH].
Qed.
Lemma reads_exists_scan fuel ks h k b i : reads (exists_scan fuel ks h k b i).
Proof.
  revert i. induction fuel as [|fuel IH]; intros i; cbn [exists_scan]; [apply reads_ret|].
  destruct (negb _); [apply reads_ret|]. apply reads_ebind; [apply reads_read|]. intros d.
  destruct (beq _ _); [apply reads_ret|apply IH].
Qed.
Lemma reads_fetch_bucket e kh h k b : reads (fetch_bucket e kh h k b).
Proof.
  apply reads_loop. intros b'. unfold fetch_step. apply reads_bind; [apply reads_fetch_scan|].
  intros [[v|]|er]; try apply reads_ret. destruct (_ =? _); [apply reads_ret|].
  apply reads_bind; [apply reads_bk_read|]. intros [x|er]; apply reads_ret.
Qed.
Lemma reads_exists_bucket e kh h k b : reads (exists_bucket e kh h k b).
Proof.
  apply reads_loop. intros b'. unfold exists_step. apply reads_bind; [apply reads_exists_scan|].
  intros [[]|er]; try apply reads_ret. destruct (_ =? _); [apply reads_ret|].
  apply reads_bind; [apply reads_bk_read|]. intros [x|er]; apply reads_ret.
Qed.
Lemma reads_store_fetch e s k : reads (store_fetch e s k).
Proof.
  unfold store_fetch. destruct (st_ec s); [apply reads_ret|]. cbv zeta.
  destruct (pool_find _ _); [apply reads_ret|]. destruct (pool_find _ _); [apply reads_ret|].
  destruct (cache_find _ _); [apply reads_fetch_bucket|].
  apply reads_ebind; [apply reads_bk_read|]. intros; apply reads_fetch_bucket.
Qed.
Lemma reads_store_insert e s k v : reads (store_insert e s k v).
Proof.
  unfold store_insert. destruct (st_ec s); [apply reads_ret|]. destruct (_ || _); [apply reads_ret|]. cbv zeta.
  destruct (pool_find _ _); [apply reads_ret|]. destruct (pool_find _ _); [apply reads_ret|].
  apply reads_ebind.
  - destruct (cache_find _ _); [apply reads_exists_bucket|].
    apply reads_ebind; [apply reads_bk_read|]. intros; apply reads_exists_bucket.
  - intros []; apply reads_ret.
Qed.

Lemma srun_bind ordf {A B} (p : prog A) (f : A -> prog B) w S w1 a :
  run p w = (w1, a) -> srun ordf (bind p f) w S = srun ordf (f a) w1 (srun ordf p w S).
Proof.
  revert w S. induction p as [a0|o k IH]; intros w S Hr.
  - simpl in *. injection Hr; intros; subst. reflexivity.
  - rewrite run_do in Hr. cbn [bind srun]. apply IH; auto.
Qed.
Lemma srun_ebind ordf {A B} (p : prog (res A)) (f : A -> prog (res B)) w S w1 a :
  run p w = (w1, Ok a) -> srun ordf (ebind p f) w S = srun ordf (f a) w1 (srun ordf p w S).
Proof. intros Hr. unfold ebind. rewrite (srun_bind ordf _ _ _ _ _ _ Hr). reflexivity. Qed.
Lemma srun_sync ordf f w S x : wget w f = Some x -> srun ordf (p_sync f) w S = sset S f (fun c => c = Some x).
Proof. intros Hw. unfold p_sync, do_unit. cbn [srun exec sexec]. rewrite Hw. reflexivity. Qed.

Lemma create_fail_er a b c er w : snd (run (create_fail a b c er) w) = Er er.
Proof.
  unfold create_fail. rewrite run_bind. destruct (run (if a then _ else _) w) as [w1 u1].
  rewrite run_bind. destruct (run (if b then _ else _) w1) as [w2 u2].
  rewrite run_bind. destruct (run (if c then _ else _) w2) as [w3 u3]. reflexivity.
Qed.

(** Everything create() writes is on the disk when it returns. *)
Lemma create_surv e p lf S f c :
  dbp_ok p -> lf_invalid lf = false -> lf_field lf = Some (db_load_factor p) ->
  srun ord (create e (args_of p lf)) no_files S f c -> c = wget (new_world e p) f.
Proof.
  intros Hp Hlf Hf. unfold create, args_of.
  cbn [ca_key_size ca_block_size ca_load_factor].
  pose proof Hp as (H1 & H2 & H3 & H4 & H5 & H6 & H7 & H8 & H9).
  replace (db_key_size p <? 1) with false by lia.
  replace (65535 <? db_block_size p) with false by lia. rewrite Hlf.
  replace (bucket_capacity (db_block_size p) <? 1) with false by lia.
  rewrite (srun_bind ord _ _ _ _ _ _ (run_create FDat no_files eq_refl)). cbv iota beta.
  erewrite srun_bind by (apply (run_create FKey); reflexivity). cbv iota beta.
  erewrite srun_bind by (apply (run_create FLog); reflexivity). cbv iota beta.
  pose proof (create_ok e p lf no_files Hp Hlf Hf eq_refl eq_refl eq_refl) as Hc.
  change (wset (wset (wset no_files FDat (Some [])) FKey (Some [])) FLog (Some []))
    with (World (Some []) (Some []) (Some [])).
  set (w0 := World (Some []) (Some []) (Some [])) in *.
  generalize (srun ord (p_create FLog) (wset (wset no_files FDat (Some [])) FKey (Some []))
    (srun ord (p_create FKey) (wset no_files FDat (Some []))
       (srun ord (p_create FDat) no_files S))). intros S0.
  assert (X : forall S0 f c, srun ord (create_fill e (CreateArgs (db_appnum p) (db_uid p) (db_salt p) (db_key_size p) (db_block_size p) lf)) w0 S0 f c
     -> c = wget (new_world e p) f).
  { clear S0 f c. intros S0 f c. unfold create_fill. cbn [ca_load_factor ca_block_size]. rewrite Hf.
    erewrite srun_ebind by (eapply (run_append FDat); [reflexivity|reflexivity]).
    unfold write_key_header. cbn [create_key_header kh_block_size ca_block_size].
    pose proof (block_min _ H7) as Hm.
    replace (db_block_size p <? key_hdr_size) with false by (symmetry; apply N.ltb_ge; exact Hm).
    erewrite srun_ebind by (eapply (run_append FKey); [reflexivity|reflexivity]).
    unfold bk_write.
    change (enc_key_header_block _) with (db_kb e p).
    erewrite srun_ebind by (eapply (run_append FKey); [reflexivity|
       cbn [app]; symmetry; apply (p_kb e p Hp)]).
    assert (Hpad : bk_padded (bk_empty (db_block_size p)) = enc_block (db_block_size p) [] 0).
    { apply padded_rep. apply bk_empty_rep. unfold key_hdr_size in Hm. lia. }
    rewrite Hpad.
    match goal with |- srun _ _ ?w _ _ _ -> _ => assert (Ew : w = new_world e p) end.
    { unfold new_world, wset, kfile, w0. cbn [w_dat w_key w_log app flat_map fst snd kblock].
      unfold kblock. cbn [fst snd]. rewrite app_nil_r. reflexivity. }
    rewrite Ew.
    erewrite srun_ebind by (eapply run_sync; reflexivity).
    erewrite srun_ebind by (eapply run_sync; reflexivity).
    erewrite (srun_sync _ FLog) by reflexivity. erewrite (srun_sync _ FKey) by reflexivity.
    erewrite (srun_sync _ FDat) by reflexivity.
    destruct f; cbn [sset fname_eqb]; auto. }
  destruct (run (create_fill e (CreateArgs (db_appnum p) (db_uid p) (db_salt p) (db_key_size p) (db_block_size p) lf)) w0) as [w1 r] eqn:Ef.
  rewrite (srun_bind ord _ _ _ _ _ _ Ef).
  assert (r = Ok tt).
  { clear - Hc Ef Hlf H3 H6 H7. unfold create, args_of in Hc. cbn [ca_key_size ca_block_size ca_load_factor] in Hc.
    replace (db_key_size p <? 1) with false in Hc by lia.
    replace (65535 <? db_block_size p) with false in Hc by lia. rewrite Hlf in Hc.
    replace (bucket_capacity (db_block_size p) <? 1) with false in Hc by lia.
    rewrite (run_bind_eq _ _ _ _ _ (run_create FDat no_files eq_refl)) in Hc. cbv iota beta in Hc.
    erewrite run_bind_eq in Hc by (apply (run_create FKey); reflexivity). cbv iota beta in Hc.
    erewrite run_bind_eq in Hc by (apply (run_create FLog); reflexivity). cbv iota beta in Hc.
    rewrite (run_bind_eq _ _ _ _ _ Ef) in Hc. destruct r as [[]|er]; auto.
    exfalso. assert (Y : forall er, snd (run (create_fail true true true er) w1) = Er er) by (intros; apply create_fail_er).
    destruct er; cbv iota in Hc; try discriminate Hc; apply (f_equal snd) in Hc; rewrite Y in Hc; discriminate Hc. }
  subst r. cbv iota. cbn [srun pret]. apply X.
Qed.

Lemma safe_with_disk ordf (G : world -> Prop) {A} (p : prog A) w S Q :
  safe ordf G p w S Q -> safe ordf G p w S (fun a w' S' => Q a w' S' /\ forall v, on_disk S' v -> G v).
Proof.
  revert w S. induction p as [a|o k IH]; intros w S Hs; simpl in *.
  - tauto.
  - split; [tauto|]. apply IH. tauto.
Qed.

Lemma allops_any {A} (p : prog A) : allops (fun _ => True) anyres p.
Proof. induction p; constructor; auto. exact I. Qed.
Lemma allops_any' {A} (p : prog (res A)) : allops (fun _ => True) (okres anyres) p.
Proof. eapply ao_weaken; [apply allops_any|auto|]. intros [a|er] _; exact I. Qed.
Lemma allops_run P {A} (R : A -> Prop) (p : prog A) w w' a : allops P R p -> run p w = (w', a) -> R a.
Proof.
  intros Ha. revert w. induction Ha; intros w Hr; [simpl in Hr; congruence|].
  rewrite run_do in Hr. eauto.
Qed.
Lemma commit_ec e s w w1 s1 : run (commit e s) w = (w1, Ok s1) -> st_ec s1 = None.
Proof.
  intros Hr. change (okres (fun s => st_ec s = None) (Ok s1)). eapply (allops_run (fun _ => True)); [|exact Hr].
  unfold commit. cbv zeta.
  repeat (eapply (ao_ebind _ anyres); [apply allops_any'|intros ? _]). apply ao_pret. reflexivity.
Qed.

(** What the running system sees may be on the disk. *)
Lemma live_run ordf {A} (p : prog A) w S w' a : run p w = (w', a) -> on_disk S w -> on_disk (srun ordf p w S) w'.
Proof.
  revert w S. induction p as [a0|o k IH]; intros w S Hr Hd.
  - simpl in *. injection Hr; intros; subst; exact Hd.
  - rewrite run_do in Hr. cbn [srun]. eapply IH; eauto. apply live_on_disk. auto.
Qed.

Section Events.
Variables (e : env) (p : dbp).
Hypothesis Hp : dbp_ok p.
Hypothesis Hit : iter_ok e.
Notation sinv := (sinv e p).
Notation before := (before e p).

Lemma szinv_some recs s : szinv recs s (blen (kvs recs) + blen (pl_map (st_p1 s)))
  (blen (enc_recs recs) + pbytes (pl_map (st_p1 s))).
Proof using. unfold szinv. lia. Qed.

Lemma settled_here recs T s w S : sinv recs T s w -> settled_surv w S -> forall v, on_disk S v -> before recs T v.
Proof using.
  intros Hi HS v Hv. left. eapply settled_at_rest; [apply Hi|]. eapply settled_on_disk; eauto.
Qed.

Lemma flush_safe recs T s w S :
  sinv recs T s w -> settled_surv w S ->
  safe ord (fun v => before recs T v \/
     exists w1 s1, run (store_flush e s) w = (w1, s1) /\ st_ec s1 = None /\ settled w1 v)
    (store_flush e s) w S
    (fun s1 w1 S' => st_ec s1 = None -> settled_surv w1 S').
Proof.
  intros Hi HS. pose proof (settled_here _ _ _ _ _ Hi HS) as Hh.
  pose proof (flush_ok e p Hp Hit recs T s w _ _ Hi (szinv_some recs s)) as Hf.
  unfold store_flush in *. destruct (pool_is_empty (st_p1 s)).
  { simpl. split; auto. }
  rewrite (si_ec _ _ _ _ _ _ Hi) in *.
  assert (Hec : forall w1 s1, run (commit e s) w = (w1, Ok s1) -> st_ec s1 = None).
  { intros w1 s1. apply commit_ec. }
  apply safe_bind.
  eapply safe_weaken; [apply safe_with_disk, safe_with_run, (commit_safe e p Hp Hit recs T s w S Hi HS)| |].
  - intros v [Hv|(w1 & s1 & Hr & Hv)]; auto. right. exists w1, s1. splits; eauto.
    rewrite (run_bind_eq _ _ _ _ _ Hr). reflexivity.
  - cbv beta. intros r w1 S1 ((H1 & H2 & H3) & HD).
    assert (HD' : forall v, on_disk S1 v -> before recs T v \/
      exists w1 s1, run (bind (commit e s) (fun r => match r with Ok s' => Ret s' | Er er => Ret (store_failed s er) end)) w
        = (w1, s1) /\ st_ec s1 = None /\ settled w1 v).
    { intros v Hv. destruct (HD v Hv) as [X|(w2 & s2 & Hr & X)]; auto. right. exists w2, s2. splits; eauto.
      rewrite (run_bind_eq _ _ _ _ _ Hr). reflexivity. }
    destruct r as [s1|er]; simpl; split; auto. discriminate.
Qed.


Definition op_good (c : op) (s : store) (recs : list drec) (T : list bent) (w v : world) : Prop :=
  before recs T v \/ exists w1 s1, run (op_prog e s c) w = (w1, (Some s1, ODone)) /\ settled w1 v.

Lemma reopen_safe recs T s w S :
  sinv recs T s w -> settled_surv w S ->
  safe ord (op_good OpReopen s recs T w) (op_prog e s OpReopen) w S
    (fun r w1 S' => snd r <> OAborted -> settled_surv w1 S').
Proof.
  intros Hi HS. pose proof (flush_safe _ _ _ _ _ Hi HS) as Hfs.
  destruct (flush_ok e p Hp Hit recs T s w _ _ Hi (szinv_some recs s))
    as [(x & T' & s' & w' & Hr & Hi' & He & _)|[_ (w' & s' & Hr & He & _)]].
  - pose proof (si_disk _ _ _ _ _ _ Hi') as Hd'. set (recs' := recs ++ x) in *.
    set (w2 := wset w' FLog None).
    assert (Hr2 : at_rest e p recs' T' w2).
    { eapply settled_at_rest; [exact Hd'|]. unfold settled, w2.
      rewrite !wget_wset_other by discriminate. splits; auto. }
    assert (Hset : forall v, at_rest e p recs' T' v -> settled (w_open e p recs' T') v).
    { intros v (A & B & C). unfold settled. splits; auto. }
    destruct (open_rest e p Hp recs' T' w' Hd' (at_rest e p recs' T') w2 (durable w2)) as (Ho & _); auto.
    { apply quiet_durable; auto. }
    assert (Hrun : run (op_prog e s OpReopen) w = (w_open e p recs' T', (Some (s_done e p T'), ODone))).
    { unfold op_prog, store_close. erewrite run_bind_eq.
      2:{ rewrite (run_bind_eq _ _ _ _ _ Hr), (si_ec _ _ _ _ _ _ Hi').
          apply (run_erase FLog w' [] (si_log _ _ _ _ _ _ Hi')). }
      cbv iota. fold w2. rewrite (run_bind_eq _ _ _ _ _ Ho). reflexivity. }
    assert (HG : forall v, at_rest e p recs' T' v -> op_good OpReopen s recs T w v).
    { intros v Hv. right. do 2 eexists. split; [exact Hrun|auto]. }
    unfold op_prog, store_close. apply safe_bind.
    eapply safe_bind_run; [exact Hr|eapply safe_weaken; [exact Hfs| |intros a b c X; exact X]|].
    { intros v [Hv|(w1 & s1 & Hr1 & _ & Hv)]; [left; exact Hv|]. apply HG.
      rewrite Hr in Hr1. injection Hr1 as <- <-. eapply settled_at_rest; eauto. }
    cbv beta. intros S1 HS1. specialize (HS1 (si_ec _ _ _ _ _ _ Hi')). rewrite (si_ec _ _ _ _ _ _ Hi').
    assert (Hon1 : forall v, on_disk S1 v -> op_good OpReopen s recs T w v).
    { intros v Hv. apply HG. eapply settled_at_rest; [exact Hd'|]. eapply settled_on_disk; eauto. }
    set (S2' := sexec ord (IoErase FLog) w' S1).
    assert (HS2 : settled_surv w2 S2').
    { destruct HS1 as (A & B & C). unfold settled_surv, S2', w2. cbn [sexec].
      rewrite (si_log _ _ _ _ _ _ Hi'). cbn [sset fname_eqb].
      rewrite !wget_wset_other by discriminate. splits; auto. intros c [Hc|Hc]; auto. }
    assert (Hq2 : quiet e p recs' T' w2 S2').
    { destruct HS2 as (A & B & C). destruct Hr2 as (R1 & R2 & _). rewrite R1 in A. rewrite R2 in B.
      unfold quiet. splits; auto. intros y Hy. destruct (C y Hy) as [-> | ->]; auto.
      right. exists []. split; auto. reflexivity. }
    destruct (open_rest e p Hp recs' T' w' Hd' (op_good OpReopen s recs T w) w2 S2' HG Hr2 Hq2) as (_ & _ & Hos).
    assert (Hon2 : forall v, on_disk S2' v -> op_good OpReopen s recs T w v).
    { intros v Hv. apply HG. eapply settled_at_rest; [|eapply settled_on_disk; [exact HS2|exact Hv]].
      unfold w2. apply disk_wlog. exact Hd'. }
    unfold p_erase, do_unit. cbn [safe]. split; [exact Hon1|]. fold S2'.
    assert (Ee : exec (IoErase FLog) w' = (w2, ROk 0 [])).
    { unfold exec. rewrite (si_log _ _ _ _ _ _ Hi'). reflexivity. }
    rewrite Ee. cbn [fst snd safe]. split; [exact Hon2|].
    apply safe_bind. eapply safe_weaken; [apply safe_with_disk, safe_with_run, Hos|auto|].
    cbv beta. intros r w3 S3 (((A & B & C) & Hr3 & _) & HD). rewrite Ho in Hr3. injection Hr3 as <- <-.
    cbn [safe]. split; [exact HD|]. intros _. unfold settled_surv. splits; auto.
  - unfold op_prog, store_close. apply safe_bind.
    eapply safe_bind_run; [exact Hr|apply safe_with_disk; eapply safe_weaken; [exact Hfs| |intros a b c X; exact X]|].
    { intros v [Hv|(w1 & s1 & Hr1 & He1 & _)]; [left; exact Hv|]. rewrite Hr in Hr1. injection Hr1 as <- <-. congruence. }
    cbv beta. intros S1 (_ & HD). rewrite He. simpl. splits; auto; congruence.
Qed.

Lemma op_safe recs T s w S c :
  sinv recs T s w -> settled_surv w S ->
  safe ord (op_good c s recs T w) (op_prog e s c) w S
    (fun r w1 S' => snd r <> OAborted -> settled_surv w1 S').
Proof.
  intros Hi HS. pose proof (settled_here _ _ _ _ _ Hi HS) as Hh.
  assert (Hh' : forall c v, on_disk S v -> op_good c s recs T w v) by (intros c' v Hv; left; auto).
  destruct c as [k v|k| |].
  - unfold op_prog. apply safe_bind.
    eapply safe_weaken; [apply safe_pure; [apply reads_store_insert|apply (Hh' (OpInsert k v))]|auto|].
    cbv beta. intros a w1 S1 (-> & ->). simpl. auto.
  - unfold op_prog. apply safe_bind.
    eapply safe_weaken; [apply safe_pure; [apply reads_store_fetch|apply (Hh' (OpFetch k))]|auto|].
    cbv beta. intros a w1 S1 (-> & ->). simpl. auto.
  - unfold op_prog. apply safe_bind.
    assert (Hx : forall v, before recs T v \/
       (exists w1 s1, run (store_flush e s) w = (w1, s1) /\ st_ec s1 = None /\ settled w1 v) ->
       op_good OpFlush s recs T w v).
    { intros v [Hv|(w1 & s1 & Hr & He & Hv)]; [left; exact Hv|]. right. exists w1, s1. split; auto.
      unfold op_prog. rewrite (run_bind_eq _ _ _ _ _ Hr), He. reflexivity. }
    destruct (flush_ok e p Hp Hit recs T s w _ _ Hi (szinv_some recs s))
      as [(x & T' & s' & w' & Hr & Hi' & He & _)|[_ (w' & s' & Hr & He & _)]];
    (eapply safe_weaken; [apply safe_with_disk, safe_with_run, (flush_safe _ _ _ _ _ Hi HS)|exact Hx|]);
    cbv beta; intros s1 w1 S1 ((H1 & H2 & _) & HD); rewrite Hr in H2; injection H2 as <- <-; cbn [safe snd]; split; auto.
    + intros _. apply H1, Hi'.
    + rewrite He. simpl. congruence.
  - apply reopen_safe; auto.
Qed.

(** One call, as a program. *)
Lemma op_result recs T s w c m d :
  sinv recs T s w -> valid_op (db_key_size p) c -> (forall k, m k = abs recs s k) ->
  (forall k, d k = kfind (kvs recs) k) ->
  (exists x T' s' w', run (op_prog e s c) w = (w', (Some s', snd (spec_step m c))) /\
     sinv (recs ++ x) T' s' w' /\ (forall k, fst (spec_step m c) k = abs (recs ++ x) s' k) /\
     (forall k, saved m d c k = kfind (kvs (recs ++ x)) k)) \/
  (exists w' o, run (op_prog e s c) w = (w', (o, OAborted))).
Proof.
  intros Hi Hv Hm Hd.
  destruct (do_op_ok e p Hp Hit recs T s w _ _ c m Hi (szinv_some recs s) Hv Hm)
    as [(x & T' & s' & w' & Hr & Hi' & _ & Ha & [Sr _ _])|[_ (w' & o & Hr & _)]];
  unfold do_op in Hr; destruct (run (op_prog e s c) w) as [w1 [s1 o1]]; injection Hr as -> -> ->.
  - left. exists x, T', s', w'. splits; auto. intros k. destruct c as [k0 v0|k0| |]; cbn [saved] in *.
    + subst x. rewrite app_nil_r. auto.
    + subst x. rewrite app_nil_r. auto.
    + change (m k) with (fst (spec_step m OpFlush) k). rewrite Ha. apply abs_flushed; auto.
    + change (m k) with (fst (spec_step m OpReopen) k). rewrite Ha. apply abs_flushed; auto.
  - right. eauto.
Qed.

(** After a stop: the files [recs], [T] are recovered and the store opens. *)
Record reopened (recs : list drec) (T : list bent) (w2 : world) : Prop := Reopened {
  ro_recover : run (recover e) w2 = (w_done e p recs T, Ok tt);
  ro_open : run (store_open e) w2 = (w_open e p recs T, Ok (s_done e p T));
  ro_inv : sinv recs T (s_done e p T) (w_open e p recs T);
  ro_surv : settled_surv (w_open e p recs T) (srun ord (store_open e) w2 (durable w2)) }.

Lemma fits_before recs T s w : sinv recs T s w -> young p ->
  blen (dat0 p recs) < 18446744073709551616 /\ blen (key0 e p T) < 18446744073709551616.
Proof using Hp.
  intros Hi Hy. exact (disk_fit e p Hp recs T w Hy (si_disk _ _ _ _ _ _ Hi)).
Qed.

Lemma reopened_before recs T s w v : sinv recs T s w -> young p -> before recs T v -> reopened recs T v.
Proof using Hp.
  intros Hi Hf Hv. destruct (fits_before _ _ _ _ Hi Hf) as [F1 F2]. pose proof (si_disk _ _ _ _ _ _ Hi) as Hd.
  destruct (open_before e p Hp recs T w Hd F1 F2 v Hv) as (A & B & C).
  destruct (recover_before e p Hp recs T w Hd F1 F2 v (durable v) Hv) as [D _]; [auto|].
  constructor; auto. pose proof (safe_run _ _ _ _ _ _ _ _ C A) as (S1 & S2 & S3).
  unfold settled_surv. splits; auto.
Qed.
Lemma reopened_rest recs T w v : disk e p recs T w -> at_rest e p recs T v -> reopened recs T v.
Proof using Hp.
  intros Hd Hv.
  assert (Hq : quiet e p recs T v (durable v)) by (apply quiet_durable; auto).
  destruct (open_rest e p Hp recs T w Hd (at_rest e p recs T) v (durable v)) as (A & B & C); auto.
  destruct (recover_rest e p Hp recs T w Hd (at_rest e p recs T) v (durable v)) as [D _]; auto.
  constructor; auto. pose proof (safe_run _ _ _ _ _ _ _ _ C A) as (S1 & S2 & S3).
  unfold settled_surv. splits; auto.
Qed.

Lemma stop_result recs T s w S c m d w1 :
  sinv recs T s w -> settled_surv w S -> young p -> valid_op (db_key_size p) c ->
  (forall k, m k = abs recs s k) -> (forall k, d k = kfind (kvs recs) k) ->
  crash ord (op_prog e s c) w S w1 ->
  (forall w2, interrupted ord e w1 w2 -> reopened recs T w2) \/
  (exists x T' s' w', run (op_prog e s c) w = (w', (Some s', ODone)) /\
     sinv (recs ++ x) T' s' w' /\ (forall k, saved m d c k = kfind (kvs (recs ++ x)) k) /\
     forall w2, interrupted ord e w1 w2 -> reopened (recs ++ x) T' w2).
Proof.
  intros Hi HS Hf Hv Hm Hd Hc.
  pose proof (safe_crash _ _ _ _ _ _ _ (op_safe _ _ _ _ _ c Hi HS) Hc) as [Hb|(w' & s' & Hr & Hst)].
  - left. intros w2 Hint. eapply reopened_before; eauto.
    destruct (fits_before _ _ _ _ Hi Hf) as [F1 F2].
    eapply (interrupted_before e p Hp recs T w (si_disk _ _ _ _ _ _ Hi) F1 F2); eauto.
  - right. destruct (op_result _ _ _ _ _ _ _ Hi Hv Hm Hd) as [(x & T' & s2 & w2 & Hr2 & Hi2 & _ & Hsv)|(w2 & o & Hr2)].
    + rewrite Hr in Hr2. injection Hr2 as <- <- _. exists x, T', s', w'. splits; auto.
      intros w2 Hint. pose proof (si_disk _ _ _ _ _ _ Hi2) as Hd2. eapply reopened_rest; eauto.
      eapply (interrupted_rest e p Hp _ _ w' Hd2); eauto. eapply settled_at_rest; eauto.
    + rewrite Hr in Hr2. discriminate Hr2.
Qed.

Definition minv (recs : list drec) (T : list bent) (M : mach) : Prop :=
  sinv recs T (m_store M) (m_files M) /\ settled_surv (m_files M) (m_disk M) /\
  on_disk (m_disk M) (m_files M).

Lemma happens_ok recs T M ev o M1 m d :
  minv recs T M -> young p -> valid_op (db_key_size p) (event_op ev) ->
  (forall k, m k = abs recs (m_store M) k) -> (forall k, d k = kfind (kvs recs) k) ->
  happens e M ev o M1 ->
  exists x T' m' d', minv (recs ++ x) T' M1 /\ (forall k, m' k = abs (recs ++ x) (m_store M1) k) /\
    (forall k, d' k = kfind (kvs (recs ++ x)) k) /\
    forall evs os mm dd, spec_events m' d' evs os mm dd -> spec_events m d (ev :: evs) (o ++ os) mm dd.
Proof.
  intros (Hi & HS & Hlv) Hf Hv Hm Hd Hh.
  destruct Hh as [w S s c w' s' o Hr Ho|w S s c w1 w2 w3 s3 Hc Hint Ho];
    cbn [m_files m_disk m_store event_op] in *.
  - destruct (op_result _ _ _ _ _ _ _ Hi Hv Hm Hd) as [(x & T' & s2 & w2 & Hr2 & Hi2 & Ha & Hsv)|(w2 & o2 & Hr2)];
      rewrite Hr in Hr2; [|injection Hr2; intros; congruence].
    injection Hr2 as <- <- ->. exists x, T', (fst (spec_step m c)), (saved m d c). splits; auto.
    + unfold minv. cbn [m_files m_disk m_store]. splits; auto.
      * pose proof (safe_run _ _ _ _ _ _ _ _ (op_safe _ _ _ _ _ c Hi HS) Hr) as X. cbv beta in X. apply X. exact Ho.
      * eapply live_run; eauto.
    + intros evs os mm dd H. cbn [app]. constructor. exact H.
  - destruct (stop_result _ _ _ _ _ _ _ _ _ Hi HS Hf Hv Hm Hd Hc) as [R|(x & T' & s' & w' & _ & _ & Hsv & R)].
    + destruct (R _ Hint) as [_ R2 R3 R4]. rewrite Ho in R2. injection R2 as -> ->.
      exists [], T, d, d. rewrite app_nil_r. splits; auto.
      * unfold minv. cbn [m_files m_disk m_store]. splits; auto. eapply live_run; [exact Ho|apply durable_live].
      * intros evs os mm dd H. cbn [app]. apply se_lost. exact H.
    + destruct (R _ Hint) as [_ R2 R3 R4]. rewrite Ho in R2. injection R2 as -> ->.
      exists x, T', (saved m d c), (saved m d c). splits; auto.
      * unfold minv. cbn [m_files m_disk m_store]. splits; auto. eapply live_run; [exact Ho|apply durable_live].
      * intros evs os mm dd H. cbn [app]. apply se_kept. exact H.
Qed.

Lemma happened_ok M evs os M' : happened e M evs os M' -> forall recs T m d,
  minv recs T M -> young p -> Forall (fun ev => valid_op (db_key_size p) (event_op ev)) evs ->
  (forall k, m k = abs recs (m_store M) k) -> (forall k, d k = kfind (kvs recs) k) ->
  exists x T' m' d', minv (recs ++ x) T' M' /\ (forall k, m' k = abs (recs ++ x) (m_store M') k) /\
    (forall k, d' k = kfind (kvs (recs ++ x)) k) /\ spec_events m d evs os m' d'.
Proof.
  induction 1 as [M|M ev o M1 evs os M2 Hh Hr IH]; intros recs T m d Hi Hy Hv Hm Hd.
  - exists [], T, m, d. rewrite app_nil_r. splits; auto. constructor.
  - inversion Hv as [|? ? Hv1 Hv2]; subst.
    destruct (happens_ok _ _ _ _ _ _ _ _ Hi Hy Hv1 Hm Hd Hh) as (x & T1 & m1 & d1 & Hi1 & Hm1 & Hd1 & Hs).
    destruct (IH _ _ _ _ Hi1 Hy Hv2 Hm1 Hd1) as (y & T2 & m2 & d2 & Hi2 & Hm2 & Hd2 & Hs2).
    exists (x ++ y), T2, m2, d2. rewrite app_assoc. splits; auto.
Qed.
End Events.

Lemma started_ok e a M : good_args a -> iter_ok e -> started e a M ->
  minv e (dbp_of a) [] [([], 0)] M /\ pl_map (st_p1 (m_store M)) = [].
Proof.
  intros Ha Hit (w1 & w2 & s & Hc & Ho & ->). destruct (good_args_ok a Ha) as (Hp & Hi & Hf & Haa).
  pose proof (create_ok e (dbp_of a) _ no_files Hp Hi Hf eq_refl eq_refl eq_refl) as Hc'. rewrite Haa in Hc'.
  rewrite Hc in Hc'. injection Hc' as ->. pose proof (new_disk e (dbp_of a) Hp) as Hd.
  set (Sc := srun ord (create e a) no_files (durable no_files)).
  assert (HSc : forall f c, Sc f c -> c = wget (new_world e (dbp_of a)) f).
  { intros f c. unfold Sc. rewrite <- Haa at 1. apply create_surv; auto. }
  set (T := [(@nil entry, 0)]) in *.
  assert (Hr : at_rest e (dbp_of a) [] T (new_world e (dbp_of a))).
  { eapply settled_at_rest; [exact Hd|]. unfold settled. splits; auto. right. exists []. split; reflexivity. }
  destruct (open_rest e _ Hp [] T _ Hd (at_rest e (dbp_of a) [] T) _ Sc ltac:(auto) Hr) as (R1 & R2 & R3).
  { apply quiet_durable; auto. }
  pose proof (safe_run _ _ _ _ _ _ _ _ R3 R1) as (S1 & S2 & S3).
  pose proof Ho as Ho'. rewrite Ho in R1. injection R1 as -> ->. split; [|reflexivity].
  unfold minv. cbn [m_files m_store m_disk]. splits; auto.
  - unfold settled_surv. splits; auto.
  - eapply live_run; [exact Ho'|]. unfold Sc. eapply live_run; [exact Hc|apply durable_live].
Qed.

Lemma young_of a : young (dbp_of a).
Proof. unfold young, dbp_of. cbn [db_base]. lia. Qed.

Lemma sinv_fit e p recs T s w : dbp_ok p -> young p -> sinv e p recs T s w -> files_fit w.
Proof.
  intros Hp Hy Hi. pose proof (si_disk _ _ _ _ _ _ Hi) as Hd. destruct (disk_fit e p Hp recs T w Hy Hd) as [F1 F2].
  pose proof (dk_dat _ _ _ _ _ Hd) as D. pose proof (dk_key _ _ _ _ _ Hd) as K. pose proof (si_log _ _ _ _ _ _ Hi) as L.
  intros f c Hc. destruct f; rewrite Hc in *.
  - injection D as ->. exact F1.
  - injection K as ->. exact F2.
  - injection L as ->. reflexivity.
Qed.

(** Everything known about a machine after some events. *)
Lemma events_ok e a M0 evs os M : good_args a -> iter_ok e -> started e a M0 -> happened e M0 evs os M ->
  Forall (fun ev => valid_op (ca_key_size a) (event_op ev)) evs ->
  exists recs T m d, minv e (dbp_of a) recs T M /\ (forall k, m k = abs recs (m_store M) k) /\
    (forall k, d k = kfind (kvs recs) k) /\ spec_events sempty sempty evs os m d.
Proof.
  intros Ha Hit Hs Hh Hv. destruct (good_args_ok a Ha) as (Hp & _).
  destruct (started_ok _ _ _ Ha Hit Hs) as [Hi He].
  destruct (happened_ok e (dbp_of a) Hp Hit M0 evs os M Hh [] [([], 0)] sempty sempty Hi (young_of a) Hv)
    as (x & T & m & d & A & B & C & D); auto.
  - intros k. unfold abs, pool_find. rewrite He. reflexivity.
  - exists x, T, m, d. auto.
Qed.
