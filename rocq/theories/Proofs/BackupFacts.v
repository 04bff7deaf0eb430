(** A copy of the data file made while a store is flushing can be made into a database. *)
From Verif Require Import Model.Bytes Model.Err Model.Field Model.Format Model.IO Model.BulkIO
  Model.Bucket Model.Pool Model.Recover Model.Create Model.Store Model.History Model.Visit Model.Crash Model.Events
  Model.Rekey Model.RekeyLife Model.Beside Model.Backup
  Spec SpecFormat SpecHeader SpecVisit Proofs.BytesFacts Proofs.IOFacts Proofs.SafeFacts Proofs.CrashFacts
  Proofs.PoolFacts Proofs.BucketFacts Proofs.BulkFacts Proofs.HashFacts Proofs.Table Proofs.Lookup Proofs.SplitFacts Proofs.CommitFacts Proofs.CommitInv Proofs.CommitRun Proofs.StoreInv Proofs.OpenFacts Proofs.HistoryFacts
  Proofs.LifeFacts Proofs.DiskFacts Proofs.RefuseFacts Proofs.VisitFacts Proofs.WrittenFacts Proofs.PosixFacts
  Proofs.RekeyFacts Proofs.RekeyRun Proofs.RekeyHist Proofs.WholeFacts Proofs.BesideFacts.
Opaque loop.

(** ** The copy *)
Lemma NoDup_app_left {A} (a b : list A) : NoDup (a ++ b) -> NoDup a.
Proof.
  induction a as [|x a IH]; intros H; [constructor|]. inversion H; subst. constructor; [|auto].
  intros Hin. apply H2. apply in_app_iff. auto.
Qed.
Lemma kvs_key_len p recs k v : Forall (drec_ok p) recs -> In (k, v) (kvs recs) -> blen k = db_key_size p.
Proof.
  intros Hr. induction Hr as [|[k' v'|es sp] l [H|[_ H]] Hr IH]; cbn [kvs]; intros Hin; try contradiction; auto.
  destruct Hin as [E|Hin]; [|auto]. injection E as -> ->. apply H.
Qed.

Lemma read_below' l : forall off n, off + fold_right N.add 0 l <= n -> allops (below n) (okres anyres) (read_pieces off l).
Proof.
  induction l as [|m l IH]; intros off n H; cbn [read_pieces fold_right] in *.
  - constructor. exact I.
  - apply (ao_ebind _ anyres).
    + apply ao_data. exists off, m. split; [reflexivity|]. right. lia.
    + intros d _. apply (ao_ebind _ anyres); [apply IH; lia|]. intros r _. apply ao_pret. exact I.
Qed.
Lemma read_below l off n : off + fold_right N.add 0 l <= n -> allops (below n) anyres (read_pieces off l).
Proof.
  intros H. apply (ao_weaken (below n) (below n) (okres anyres)); [apply read_below'; exact H|auto|intros; exact I].
Qed.

Lemma run_pieces d l : forall off, off + fold_right N.add 0 l <= blen d ->
  run (read_pieces off l) (snap d) = (snap d, Ok (bsub off (fold_right N.add 0 l) d)).
Proof.
  induction l as [|m l IH]; intros off H; cbn [read_pieces fold_right] in *.
  - unfold bsub. rewrite btake_0. reflexivity.
  - rewrite (run_ebind_ok _ _ _ _ _ (run_read FDat off m (snap d) d eq_refl ltac:(lia))).
    rewrite (run_ebind_ok _ _ _ _ _ (IH (off + m) ltac:(lia))). cbn [pret run]. f_equal. f_equal.
    symmetry. apply BytesFacts.bsub_split.
Qed.

Lemma copy_snapshot torn ks base D {B} cut (q : prog B) w a d : whole_cut cut ->
  beside torn (copy cut) q w a -> writing torn ks base D q w -> w_dat w = Some d ->
  exists x w' (q' : prog B), writing torn ks base D q' w' /\ w_dat w' = Some (d ++ x) /\ a = Ok (d ++ x).
Proof.
  intros Hc Hb Hq Hd. unfold copy in Hb. cbn [p_open do_unit ebind bind] in Hb.
  destruct (next_mine torn ks base D _ _ _ _ _ Hb d Hq Hd) as (q1 & w1 & x1 & Q1 & W1 & B1). clear Hb.
  assert (E1 : exec (IoOpen FDat) w1 = (w1, ROk 0 [])).
  { cbn [exec]. change (wget w1 FDat) with (w_dat w1). rewrite W1. reflexivity. }
  rewrite E1 in B1. cbn [fst snd] in B1. cbn [ebind bind p_size do_num] in B1.
  destruct (next_mine torn ks base D _ _ _ _ _ B1 _ Q1 W1) as (q2 & w2 & x2 & Q2 & W2 & B2). clear B1.
  rewrite <- app_assoc in W2. set (y := x1 ++ x2) in *.
  assert (E3 : exec (IoSize FDat) w2 = (w2, ROk (blen (d ++ y)) [])).
  { cbn [exec]. change (wget w2 FDat) with (w_dat w2). rewrite W2. reflexivity. }
  rewrite E3 in B2. cbn [fst snd ebind bind] in B2.
  exists y, w2, q2. split; [exact Q2|]. split; [exact W2|].
  rewrite (reader_alone torn ks base D _ q2 w2 a (d ++ y) [] B2); [|apply read_below; rewrite Hc; lia|exact Q2|rewrite app_nil_r; exact W2].
  rewrite run_pieces by (rewrite Hc; lia). cbn [snd]. rewrite Hc. f_equal. unfold bsub. rewrite bdrop_0. apply btake_all. lia.
Qed.

(** ** Rekeying the first records of a database *)
Lemma low_prefix recs x : low 0 (recs ++ x) -> low 0 recs.
Proof.
  intros H o es sp Hin Ho. apply (H o es sp); [|exact Ho]. rewrite placed_app. apply in_app_iff. left. exact Hin.
Qed.

Lemma rekey_prefix e p r recs x : dbp_ok p -> good_rekey r ->
  Forall (drec_ok p) (recs ++ x) -> NoDup (map fst (kvs (recs ++ x))) -> Forall entry_ok (dents e p (recs ++ x)) ->
  low 0 (recs ++ x) ->
  let w := World (Some (db_hdr p ++ enc_recs recs)) None None in
  (exists w1 t w2 s2, run (rekey e r) w = (w1, Ok t) /\ run (store_open e) w1 = (w2, Ok s2) /\
     forall k, blen k = db_key_size p -> snd (run (store_fetch e s2 k) w2) =
       match kfind (kvs recs) k with Some v => Ok v | None => Er key_not_found end) \/
  (exists w1, run (rekey e r) w = (w1, Er EAssert) /\ near_limit w1).
Proof.
  intros Hp Hg Hr Hn He Hl w. destruct (good_rekey_ready r Hg) as (lf & nb & Ha).
  apply Forall_app in Hr as [Hr _]. rewrite kvs_app, map_app in Hn. apply NoDup_app_left in Hn.
  apply low_prefix in Hl. destruct (dents_app e p recs x) as (y & Ey). rewrite Ey in He. apply Forall_app in He as [He _].
  destruct (rekey_run e p r lf nb Hp Ha recs w eq_refl eq_refl eq_refl Hr Hn He Hl) as (news & Hs & _ & Hc).
  pose proof (rekeyed_ok p r lf nb Hp Ha) as Hp2.
  destruct Hc as [(t & T & Hrun & Hd & _ & _)|(w1 & Hrun & Hbig)].
  - left. cbv zeta in Hrun, Hd. set (wk := World (Some (db_hdr p ++ enc_recs (recs ++ news))) _ None) in *.
    destruct (open_ok e _ Hp2 _ _ _ Hd (or_introl eq_refl)) as [Hopen Hs2].
    set (s2 := Store _ _ _ _ _ _ _ _ _) in *.
    exists wk, t, (wset wk FLog (Some [])), s2. split; [exact Hrun|]. split; [exact Hopen|].
    intros k Hk. rewrite (fetch_ok e _ Hp2 _ _ _ _ k Hs2 Hk). cbn [snd].
    assert (E : abs (recs ++ news) s2 k = kfind (kvs recs) k).
    { unfold abs. change (pool_find (st_p1 s2) k) with (@None pelem). cbv iota.
      rewrite kvs_app, (kvs_spills _ _ Hs), app_nil_r. reflexivity. }
    rewrite E. reflexivity.
  - right. exists w1. split; [exact Hrun|]. exact (too_big_near _ _ Hbig).
Qed.

(** ** The theorem *)
Lemma backup_beside e a l w s w' s' cut x r :
  iter_ok e -> good_args a -> Forall (valid_op (ca_key_size a)) l -> lived e a l w s ->
  lived e a (l ++ [OpFlush]) w' s' -> whole_cut cut -> good_rekey r ->
  beside false (copy cut) (store_flush e s) w x ->
  exists d, x = Ok d /\
  ((exists w1 t w2 s2 new rest, run (rekey e r) (World (Some d) None None) = (w1, Ok t) /\
      run (store_open e) w1 = (w2, Ok s2) /\
      let W := written sempty [] [] l ++ new in
      W ++ rest = written sempty [] [] (l ++ [OpFlush]) /\
      (forall k v, In (k, v) W -> snd (run (store_fetch e s2 k) w2) = Ok v) /\
      (forall k, blen k = ca_key_size a -> ~ In k (map fst W) -> snd (run (store_fetch e s2 k) w2) = Er key_not_found)) \/
   (exists w1, run (rekey e r) (World (Some d) None None) = (w1, Er EAssert) /\ near_limit w1)).
Proof.
  intros Hit Ha Hv Hl Hl' Hcut Hg Hb. destruct (good_args_ok a Ha) as (Hp & _).
  assert (Hv' : Forall (valid_op (ca_key_size a)) (l ++ [OpFlush])) by (apply Forall_app; repeat constructor; auto).
  destruct (lived_written e a l w s Ha Hit Hv Hl) as (recs & T & i & b & Hi & _ & Hk).
  destruct (lived_written e a _ w' s' Ha Hit Hv' Hl') as (recs' & T' & i' & b' & Hi' & _ & Hk').
  assert (Hrun : fst (run (store_flush e s) w) = w').
  { destruct Hl as (os & Hl), Hl' as (os' & Hl'). rewrite (life_app e a l [OpFlush] w s os Hl) in Hl'.
    cbn [do_ops] in Hl'. unfold do_op in Hl'. cbn [op_prog] in Hl'. rewrite run_bind in Hl'.
    destruct (run (store_flush e s) w) as [w1 s1]. cbn [run fst] in *.
    destruct (done_out (st_ec s1)); injection Hl'; auto. }
  pose proof (si_disk _ _ _ _ _ _ Hi) as Dk. pose proof (si_disk _ _ _ _ _ _ Hi') as Dk'.
  set (p := dbp_of a) in *. set (ks := db_key_size p).
  assert (R : Forall (record_ok ks) (map rec_spec recs)) by (eapply rec_spec_ok; [apply p_bs; eauto|apply Dk]).
  assert (R' : Forall (record_ok ks) (map rec_spec recs')) by (eapply rec_spec_ok; [apply p_bs; eauto|apply Dk']).
  set (rs := map rec_spec recs) in *. set (rs' := map rec_spec recs') in *.
  assert (Hd : w_dat w = Some (db_hdr p ++ images rs)).
  { pose proof (dk_dat _ _ _ _ _ Dk) as X. rewrite enc_recs_images in X. exact X. }
  assert (Hd' : w_dat w' = Some (db_hdr p ++ images rs')).
  { pose proof (dk_dat _ _ _ _ _ Dk') as X. rewrite enc_recs_images in X. exact X. }
  assert (Hw : writing false ks (db_hdr p ++ images rs) (db_hdr p ++ images rs') (store_flush e s) w).
  { split.
    - eapply so_weaken; [apply (whole_flush e s ks)|apply whole_grow|auto].
      + destruct (si_kh _ _ _ _ _ _ Hi) as (B & ->). cbn [db_kh kh_block_size]. apply Hp.
      + destruct (si_kh _ _ _ _ _ _ Hi) as (B & ->). cbn [db_kh kh_block_size]. apply p_bs. exact Hp.
      + eapply Forall_impl; [|apply (si_batch _ _ _ _ _ _ Hi)]. intros y (_ & Y1 & Y2 & Y3). split; [exact Y1|]. auto.
    - exists (db_hdr p ++ images rs). split; [exact Hd|]. split; [rewrite Hrun; exact Hd'|].
      intros _. exists []. split; [apply records_nil|]. rewrite app_nil_r. reflexivity. }
  destruct (copy_snapshot false ks _ _ cut _ w x _ Hcut Hb Hw Hd) as (t & w1 & q1 & Hw1 & Hd1 & Hx).
  destruct Hw1 as (Hs1 & d1 & Hd1' & HD1 & Hrec).
  assert (d1 = (db_hdr p ++ images rs) ++ t) by congruence. subst d1. clear Hd1'.
  destruct (sops_run_grows false ks q1 w1 _ Hs1 Hd1) as (u & Hu).
  assert (E : db_hdr p ++ images rs' = ((db_hdr p ++ images rs) ++ t) ++ u) by congruence. clear Hu HD1.
  destruct (Hrec eq_refl) as (z & (m & Rm & ->) & Ez). clear Hrec.
  assert (t = images m) by (apply app_inv_head in Ez; exact Ez). subst t. clear Ez.
  rewrite <- !app_assoc in E. apply app_inv_head in E. rewrite app_assoc, <- images_app in E.
  assert (Rn : Forall (record_ok ks) (rs ++ m)) by (apply Forall_app; auto).
  destruct (images_prefix ks (rs ++ m) rs' _ Rn R' E) as (more & Em & _).
  unfold rs' in Em. apply map_eq_app in Em as (r1 & r2 & -> & M1 & M2).
  assert (Ed : (db_hdr p ++ images rs) ++ images m = db_hdr p ++ enc_recs r1).
  { rewrite enc_recs_images, M1, images_app, app_assoc. reflexivity. }
  rewrite Ed in Hx. exists (db_hdr p ++ enc_recs r1). split; [exact Hx|].
  assert (Kr : kvs r1 = written sempty [] [] l ++ values m).
  { rewrite <- values_kvs, M1, values_app. unfold rs. rewrite values_kvs, Hk. reflexivity. }
  pose proof (dk_nd _ _ _ _ _ Dk') as Hnd.
  destruct (rekey_prefix e p r r1 r2 Hp Hg (dk_recs _ _ _ _ _ Dk') Hnd
    (dk_ents _ _ _ _ _ Dk') (dk_low _ _ _ _ _ Dk')) as [(w2 & t & w3 & s2 & X1 & X2 & X3)|X]; [left|right; exact X].
  rewrite kvs_app, map_app in Hnd. apply NoDup_app_left in Hnd.
  exists w2, t, w3, s2, (values m), (values more). split; [exact X1|]. split; [exact X2|]. cbv zeta. rewrite <- Kr.
  split; [|split].
  - rewrite <- Hk', kvs_app. f_equal. rewrite <- values_kvs, M2. reflexivity.
  - intros k v Hin. assert (Hkl : blen k = db_key_size p).
    { pose proof (dk_recs _ _ _ _ _ Dk') as Y. apply Forall_app in Y as [Y _]. exact (kvs_key_len p r1 k v Y Hin). }
    rewrite (X3 k Hkl). apply (kfind_In _ _ _ Hnd) in Hin. rewrite Hin. reflexivity.
  - intros k Hkl Hin. rewrite (X3 k Hkl). apply kfind_none in Hin. rewrite Hin. reflexivity.
Qed.
