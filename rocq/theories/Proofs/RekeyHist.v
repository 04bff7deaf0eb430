(** Histories with rekeys. *)
From Verif Require Import Model.Bytes Model.Err Model.Field Model.Format Model.IO
  Model.BulkIO Model.Bucket Model.Pool Model.Recover Model.Create Model.Store Spec Model.History
  Model.Rekey Model.RekeyLife
  Proofs.BytesFacts Proofs.FieldFacts Proofs.IOFacts Proofs.PoolFacts Proofs.BucketFacts
  Proofs.BulkFacts Proofs.HashFacts Proofs.Table Proofs.Lookup Proofs.SplitFacts
  Proofs.CommitFacts Proofs.CommitInv Proofs.CommitRun Proofs.HeaderFacts Proofs.StoreInv
  Proofs.OpenFacts Proofs.HistoryFacts Proofs.LifeFacts Proofs.RekeyFacts Proofs.RekeyRun.

Opaque loop.

Lemma good_rekey_ready a : good_rekey a -> exists lf nb, rekey_ready a lf nb.
Proof.
  intros (H1 & H2 & H3 & H4). destruct (ra_load_factor a) as [|n d] eqn:El; [contradiction|].
  destruct (ra_buckets a) as [nb|] eqn:Eb; [|contradiction].
  change (2 ^ 64) with 18446744073709551616 in *. change (2 ^ 64)%Z with 18446744073709551616%Z in *.
  destruct H3 as [H3 H5]. unfold rekey_ready. rewrite El, Eb. cbn [rekey_lf]. cbv zeta.
  set (x := Z.quot (65536 * n) (Z.pos d)).
  assert (X1 : (1 <= x)%Z).
  { unfold x. rewrite Z.quot_div_nonneg by lia. apply Z.div_le_lower_bound; lia. }
  assert (X2 : (x < 18446744073709551616)%Z).
  { unfold x. rewrite Z.quot_div_nonneg by lia. apply Z.div_lt_upper_bound; lia. }
  replace ((x <? 0)%Z || (18446744073709551615 <? x)%Z) with false by lia.
  exists (N.min (Z.to_N x) 65535), nb. splits; auto; try lia; apply H2.
Qed.

Lemma run_close e p recs T s w i b :
  dbp_ok p -> iter_ok e -> sinv e p recs T s w -> szinv recs s i b ->
  (exists x T' s' w', run (store_close e s) w = (wset w' FLog None, Ok tt) /\
     sinv e p (recs ++ x) T' s' w' /\ szinv (recs ++ x) s' i b /\ pl_map (st_p1 s') = [] /\
     kvs (recs ++ x) = kvs recs ++ map (fun y => (pe_key y, pe_data y)) (pl_map (st_p1 s)) /\
     (forall k, abs recs s k = kfind (kvs (recs ++ x)) k)) \/
  (too_long i b /\ exists w', run (store_close e s) w = (w', Er EAssert) /\ near_limit w').
Proof.
  intros Hp Hit Hi Hz.
  destruct (flush_ok e p Hp Hit _ _ _ _ _ _ Hi Hz) as [(x & T' & s' & w' & Hr & Hi' & He & Hz' & Hkv & Ha & _)|[Hbig (w' & s' & Hr & He & Hnl)]];
    [left|right; split; [exact Hbig|]].
  exists x, T', s', w'. splits; auto.
  - unfold store_close. rewrite (run_bind_eq _ _ _ _ _ Hr). rewrite (si_ec _ _ _ _ _ _ Hi').
    rewrite (run_erase FLog w' _ (si_log _ _ _ _ _ _ Hi')). reflexivity.
  - intros k. rewrite <- Ha. unfold abs, pool_find. rewrite He. reflexivity.
  - exists w'. split; [|exact Hnl]. unfold store_close. rewrite (run_bind_eq _ _ _ _ _ Hr), He. reflexivity.
Qed.

(** What a rekey does. *)
Record rekeyed_to (e : env) (p : dbp) (recs : list drec) (s : store) (w : world) (a : rekey_args)
    (lf nb : N) (x news : list drec) (T : list bent) (s2 : store) (w2 : world) (t : list (N * N)) : Prop := RekeyedTo {
  rt_ready : rekey_ready a lf nb;
  rt_close : exists w', run (store_close e s) w = (w', Ok tt) /\
    wget w' FDat = Some (db_hdr p ++ enc_recs (recs ++ x)) /\ wget w' FLog = None /\
    (exists K, wget w' FKey = Some K) /\
    run (rekey e a) (wset w' FKey None) = (wset w2 FLog None, Ok t) /\
    run (store_open e) (wset w2 FLog None) = (w2, Ok s2);
  rt_do : do_xop e s (XRekey a) w = (w2, Some s2, ODone);
  rt_sinv : sinv e (rekeyed p a lf nb) ((recs ++ x) ++ news) T s2 w2;
  rt_p1 : pl_map (st_p1 s2) = [];
  rt_B : blen T = nb;
  rt_spills : spills_only (db_kh e (rekeyed p a lf nb) nb) news;
  rt_kvs : kvs ((recs ++ x) ++ news) = kvs recs ++ map (fun y => (pe_key y, pe_data y)) (pl_map (st_p1 s));
  rt_abs : forall k, abs ((recs ++ x) ++ news) s2 k = abs recs s k;
  rt_calls : rk_calls a nb (blen (db_hdr p ++ enc_recs (recs ++ x))) t }.

Lemma rekey_op_ok e p recs T s w i b a :
  dbp_ok p -> iter_ok e -> good_rekey a -> sinv e p recs T s w -> szinv recs s i b ->
  (exists lf nb x news T' s2 w2 t, rekeyed_to e p recs s w a lf nb x news T' s2 w2 t /\
     szinv ((recs ++ x) ++ news) s2 i (b + 65544 * i)) \/
  (too_long i (b + 65544 * i) /\ exists w', do_xop e s (XRekey a) w = (w', None, OAborted) /\ near_limit w' /\
     (run (store_close e s) w = (w', Er EAssert) \/
      exists d k, run (store_close e s) w = (World (Some d) (Some k) None, Ok tt) /\
        run (rekey e a) (World (Some d) None None) = (w', Er EAssert))).
Proof.
  intros Hp Hit Hg Hi Hz. destruct (good_rekey_ready a Hg) as (lf & nb & Ha).
  destruct (run_close e p recs T s w i b Hp Hit Hi Hz) as [(x & T' & s' & w' & Hr & Hi' & Hz' & He & Hkv & Habs)|[Hbig (w' & Hr & Hnl)]].
  2: { right. split; [unfold too_long in *; lia|]. exists w'. split; [|split; [exact Hnl|left; exact Hr]].
       unfold do_xop, rekey_prog. rewrite (run_bind_eq _ _ _ _ _ Hr). reflexivity. }
  pose proof (si_disk _ _ _ _ _ _ Hi') as Hd.
  set (recs1 := recs ++ x) in *. destruct Hz' as [Z1 Z2]. rewrite He in Z1, Z2. cbn [pbytes] in Z2.
  change (blen (@nil pelem)) with 0 in Z1.
  assert (Zc : blen (kvs recs1) * blen (kvs recs1) <= i * i) by (apply sq_mono; lia).
  set (w1 := wset w' FLog None) in *.
  assert (D1 : wget w1 FDat = Some (db_hdr p ++ enc_recs recs1)).
  { unfold w1. rewrite wget_wset_other by discriminate. apply (dk_dat _ _ _ _ _ Hd). }
  assert (K1 : wget w1 FKey = Some (kfile (db_block_size p) (db_kb e p) T')).
  { unfold w1. rewrite wget_wset_other by discriminate. apply (dk_key _ _ _ _ _ Hd). }
  assert (L1 : wget w1 FLog = None) by apply wget_wset_same.
  set (w1' := wset w1 FKey None).
  pose proof (p_hdr p) as Hh. unfold dat_hdr_size in Hh.
  destruct (rekey_run e p a lf nb Hp Ha recs1 w1') as (news & Hs & Hn & Hcase).
  { unfold w1'. rewrite wget_wset_other by discriminate. exact D1. }
  { apply wget_wset_same. }
  { unfold w1'. rewrite wget_wset_other by discriminate. exact L1. }
  { apply (dk_recs _ _ _ _ _ Hd). }
  { apply (dk_nd _ _ _ _ _ Hd). }
  { apply (dk_ents _ _ _ _ _ Hd). }
  { apply (dk_low _ _ _ _ _ Hd). }
  pose proof (rekeyed_ok p a lf nb Hp Ha) as Hp2.
  pose proof (blen_spills _ _ (p_bs _ Hp2 : kh_block_size (db_kh e (rekeyed p a lf nb) nb) <= 65535)
    (p_cap _ Hp2 : 1 <= bucket_capacity (kh_block_size (db_kh e (rekeyed p a lf nb) nb))) Hs) as Hsp.
  destruct Hcase as [(t & T2 & Hrun & Hd2 & HB & Hcalls)|(wf & Hrun & Hbig)].
  2: { right. split.
       { destruct Hbig as [Hbig _]. unfold too_long. unfold dat_hdr_size in Hbig. rewrite enc_recs_app, blen_app in Hbig.
         clear - Hbig Hsp Hn Z1 Z2 Zc. lia. }
       exists wf. split; [|split; [exact (too_big_near _ _ Hbig)|right]].
       - unfold do_xop, rekey_prog. rewrite (run_bind_eq _ _ _ _ _ Hr). cbv beta iota. fold w1.
         rewrite (run_bind_eq _ _ _ _ _ (run_erase _ _ _ K1)). cbv beta iota. fold w1'.
         rewrite (run_bind_eq _ _ _ _ _ Hrun). reflexivity.
       - exists (db_hdr p ++ enc_recs recs1), (kfile (db_block_size p) (db_kb e p) T').
         assert (Ew : w1 = World (Some (db_hdr p ++ enc_recs recs1)) (Some (kfile (db_block_size p) (db_kb e p) T')) None).
         { clear - D1 K1 L1. destruct w1 as [v1 v2 v3]. change (v1 = Some (db_hdr p ++ enc_recs recs1)) in D1.
           change (v2 = Some (kfile (db_block_size p) (db_kb e p) T')) in K1. change (v3 = None) in L1. rewrite D1, K1, L1. reflexivity. }
         split; [rewrite Hr; fold w1; rewrite Ew; reflexivity|]. rewrite <- Hrun. unfold w1'. rewrite Ew. reflexivity. }
  left.
  set (wk := World _ _ None) in *.
  destruct (open_ok e _ Hp2 _ _ _ Hd2 (or_introl eq_refl)) as [Hopen Hs2].
  set (s2 := Store _ _ _ _ _ _ _ _ _) in *.
  exists lf, nb, x, news, T2, s2, (wset wk FLog (Some [])), t.
  assert (Ew : wset (wset wk FLog (Some [])) FLog None = wk) by reflexivity.
  assert (Hkv2 : kvs (recs1 ++ news) = kvs recs1) by (rewrite kvs_app, (kvs_spills _ _ Hs), app_nil_r; reflexivity).
  split.
  - constructor; fold recs1.
    + exact Ha.
    + exists w1. rewrite Ew. splits; auto. eauto.
    + unfold do_xop, rekey_prog. rewrite (run_bind_eq _ _ _ _ _ Hr). cbv beta iota.
      rewrite (run_bind_eq _ _ _ _ _ (run_erase _ _ _ K1)). cbv beta iota. fold w1'.
      rewrite (run_bind_eq _ _ _ _ _ Hrun). cbv beta iota.
      rewrite (run_bind_eq _ _ _ _ _ Hopen). reflexivity.
    + exact Hs2.
    + reflexivity.
    + exact HB.
    + exact Hs.
    + etransitivity; [exact Hkv2|exact Hkv].
    + intros k. rewrite Habs. symmetry. exact (f_equal (fun y => kfind y k) (eq_sym Hkv2)).
    + exact Hcalls.
  - unfold szinv. fold recs1. rewrite Hkv2. change (pl_map (st_p1 s2)) with (@nil pelem). cbn [pbytes].
    change (blen (@nil pelem)) with 0. rewrite enc_recs_app, blen_app. lia.
Qed.

(** Whole histories. *)
Definition too_long_x (i b r : N) : Prop := 281474976710648 <= 92 + b + 65544 * (i * i) + 65544 * (r * i).

Lemma do_xops_ok e l : iter_ok e -> forall p recs T s w i b m,
  dbp_ok p -> sinv e p recs T s w -> szinv recs s i b -> Forall (valid_xop (db_key_size p)) l ->
  (forall k, m k = abs recs s k) ->
  let I := i + inserts (map as_reopen l) in
  let B := b + insert_bytes (map as_reopen l) in
  (exists q recs' T' s' w', do_xops e s l w = (w', Some s', spec_outs m (map as_reopen l)) /\
    dbp_ok q /\ sinv e q recs' T' s' w' /\
    szinv recs' s' I (B + 65544 * (rekeys l * I)) /\
    db_uid q = db_uid p /\ db_appnum q = db_appnum p /\ db_key_size q = db_key_size p /\
    (forall k, spec_final m (map as_reopen l) k = abs recs' s' k)) \/
  (too_long_x I B (rekeys l) /\ exists w' n, (n < length l)%nat /\ near_limit w' /\
    do_xops e s l w = (w', None, firstn n (spec_outs m (map as_reopen l)) ++ [OAborted])).
Proof.
  intros Hit. induction l as [|c l IH]; intros p recs T s w i b m Hp Hi Hz Hv Hm I B.
  - left. exists p, recs, T, s, w. cbn [do_xops map spec_outs]. splits; auto.
    eapply szinv_mono; [exact Hz|unfold I; cbn [map inserts]; lia|unfold B; cbn [map insert_bytes rekeys]; lia].
  - inversion Hv as [|? ? Hc Hl]; subst.
    destruct c as [c|a]; cbn [map as_reopen inserts insert_bytes do_xops spec_outs spec_final rekeys do_xop length] in *.
    + assert (Hna : snd (spec_step m c) <> OAborted).
      { destruct c as [k v|k| |]; cbn [spec_step]; try destruct (m k); cbn [snd]; discriminate. }
      destruct (do_op_ok e p Hp Hit _ _ _ _ _ _ c m Hi Hz Hc Hm)
        as [(x & T1 & s1 & w1 & Hr & Hi1 & Hz1 & Hm1 & _)|[Hbig (w1 & o1 & Hr & Hnl)]].
      2: { right. split.
           - unfold too_long in Hbig. unfold too_long_x, I, B.
             pose proof (sq_mono (i + op_inserts c) (i + (op_inserts c + inserts (map as_reopen l))) ltac:(lia)). lia.
           - exists w1, 0%nat. split; [lia|]. split; [exact Hnl|]. rewrite Hr. destruct o1; reflexivity. }
      rewrite Hr. destruct (spec_step m c) as [m' o] eqn:Es. cbn [fst snd] in *.
      unfold I, B. rewrite (N.add_assoc i), (N.add_assoc b).
      destruct (IH p _ _ _ _ _ _ m' Hp Hi1 Hz1 Hl Hm1)
        as [(q & recs' & T' & s' & w' & Ho & R)|[Hbig (w' & n & Hn & Hnl & Ho)]]; rewrite Ho.
      * left. exists q, recs', T', s', w'. split; [destruct o; try reflexivity; congruence|]. exact R.
      * right. split; [exact Hbig|]. exists w', (Datatypes.S n). split; [lia|]. split; [exact Hnl|].
        destruct o; try reflexivity. congruence.
    + destruct (rekey_op_ok e p recs T s w i b a Hp Hit Hc Hi Hz)
        as [(lf & nb & x & news & T1 & s1 & w1 & t & Hrt & Hz1)|[Hbig (w1 & Hr & Hnl & _)]].
      2: { right. split.
           - unfold too_long in Hbig. unfold too_long_x, I, B. cbn [op_inserts op_bytes].
             pose proof (sq_mono i (i + (0 + inserts (map as_reopen l))) ltac:(lia)).
             assert (i <= (1 + rekeys l) * (i + (0 + inserts (map as_reopen l)))) by nia. lia.
           - cbn [do_xop] in Hr. exists w1, 0%nat. split; [lia|]. split; [exact Hnl|]. rewrite Hr. reflexivity. }
      pose proof (rt_do _ _ _ _ _ _ _ _ _ _ _ _ _ _ Hrt) as Hdo. cbn [do_xop] in Hdo. rewrite Hdo.
      unfold I, B. cbn [op_inserts op_bytes spec_step fst snd]. rewrite !N.add_0_l.
      destruct (IH _ _ _ _ _ _ _ m (rekeyed_ok _ _ _ _ Hp (rt_ready _ _ _ _ _ _ _ _ _ _ _ _ _ _ Hrt))
        (rt_sinv _ _ _ _ _ _ _ _ _ _ _ _ _ _ Hrt) Hz1 Hl)
        as [(q & recs' & T' & s' & w' & Ho & Hq & Hs' & Hz' & R)|[Hbig (w' & n & Hn & Hnl & Ho)]].
      { intros k. rewrite Hm. symmetry. apply (rt_abs _ _ _ _ _ _ _ _ _ _ _ _ _ _ Hrt). }
      * left. rewrite Ho. exists q, recs', T', s', w'. split; [reflexivity|]. split; [exact Hq|]. split; [exact Hs'|].
        split; [|exact R]. eapply szinv_mono; [exact Hz'|lia|]. nia.
      * right. split; [unfold too_long_x in *; nia|]. rewrite Ho.
        exists w', (Datatypes.S n). split; [lia|]. split; [exact Hnl|reflexivity].
Qed.

Lemma not_small_x l : too_long_x (inserts (map as_reopen l)) (insert_bytes (map as_reopen l)) (rekeys l) -> ~ small_xhistory l.
Proof. unfold too_long_x, small_xhistory. cbv zeta. lia. Qed.

Lemma xlived_ok e a l : good_args a -> iter_ok e -> Forall (valid_xop (ca_key_size a)) l ->
  (exists q recs T s w, xlife e a l = (w, Some s, spec_outs sempty (map as_reopen l)) /\
    dbp_ok q /\ sinv e q recs T s w /\
    szinv recs s (inserts (map as_reopen l))
      (insert_bytes (map as_reopen l) + 65544 * (rekeys l * inserts (map as_reopen l))) /\
    db_uid q = ca_uid a /\ db_appnum q = ca_appnum a /\ db_key_size q = ca_key_size a /\
    (forall k, spec_final sempty (map as_reopen l) k = abs recs s k)) \/
  (~ small_xhistory l /\ exists w n, (n < length l)%nat /\ near_limit w /\
    xlife e a l = (w, None, firstn n (spec_outs sempty (map as_reopen l)) ++ [OAborted])).
Proof.
  intros Ha Hit Hv. destruct (good_args_ok a Ha) as (Hp & _).
  destruct (lived_start e a Ha Hit) as (s & w & Hl & Hs & He & Hf).
  assert (E : xlife e a l = do_xops e s l w).
  { unfold xlife. pose proof (Hl []) as H0. unfold life in H0.
    destruct (run (create e a) no_files) as [w1 [u|er]]; [|discriminate].
    destruct (run (store_open e) w1) as [w2 [s2|er]]; [|discriminate].
    cbn [do_ops] in H0. injection H0 as -> ->. reflexivity. }
  rewrite E.
  destruct (do_xops_ok e l Hit (dbp_of a) [] [([], 0)] s w 0 0 sempty Hp Hs) as [X|[Hb X]].
  - split; rewrite He; reflexivity.
  - exact Hv.
  - intros k. unfold abs, pool_find. rewrite He. reflexivity.
  - left. rewrite !N.add_0_l in X. exact X.
  - right. rewrite !N.add_0_l in Hb. split; [apply not_small_x; exact Hb|exact X].
Qed.
