(** rekey(): the whole call. *)
From Verif Require Import Model.Bytes Model.Err Model.Field Model.Format Model.IO
  Model.BulkIO Model.Bucket Model.Pool Model.Recover Model.Create Model.Store Model.Rekey
  Proofs.BytesFacts Proofs.FieldFacts Proofs.IOFacts Proofs.PoolFacts Proofs.BucketFacts
  Proofs.BulkFacts Proofs.HashFacts Proofs.Table Proofs.Lookup Proofs.SplitFacts
  Proofs.CommitFacts Proofs.CommitInv Proofs.CommitRun Proofs.HeaderFacts Proofs.StoreInv
  Proofs.OpenFacts Proofs.RekeyBucket Proofs.RekeyFacts.

Opaque loop.

(** Arguments of rekey: as required by the documentation, with as many buckets as a
    file of less than 2^64 bytes has room for. *)
Definition rekey_ready (a : rekey_args) (lf nb : N) : Prop :=
  ra_salt a < 18446744073709551616 /\ 104 <= ra_block_size a /\ ra_block_size a <= 65535 /\
  rekey_lf (ra_load_factor a) = Some lf /\ 1 <= lf /\
  ra_buckets a = Some nb /\ 1 <= nb /\ (nb + 1) * ra_block_size a < 18446744073709551616.

(** The database made from [p]. *)
Definition rekeyed (p : dbp) (a : rekey_args) (lf nb : N) : dbp :=
  DbP (db_uid p) (db_appnum p) (db_key_size p) (ra_salt a) (ra_block_size a) lf true nb.

Lemma rekey_lf_le f x : rekey_lf f = Some x -> x <= 65535.
Proof.
  destruct f as [|n d]; cbn [rekey_lf]; [discriminate|]. cbv zeta.
  destruct ((Z.quot (65536 * n) (Z.pos d) <? 0)%Z || (18446744073709551615 <? Z.quot (65536 * n) (Z.pos d))%Z);
    [discriminate|]. intros H. injection H as <-. lia.
Qed.

Lemma cap_104 bs : 104 <= bs -> 1 <= bucket_capacity bs.
Proof.
  intros H. unfold bucket_capacity, key_hdr_size. replace (bs <? 104) with false by lia.
  replace (bs <? 2 + 6) with false by lia. cbn [orb]. apply N.div_le_lower_bound; lia.
Qed.

Lemma rekeyed_ok p a lf nb : dbp_ok p -> rekey_ready a lf nb -> dbp_ok (rekeyed p a lf nb).
Proof.
  intros (H1 & H2 & H3 & H4 & _) (A1 & A2 & A3 & A4 & A5 & A6 & A7 & A8).
  unfold dbp_ok, rekeyed. cbn [db_uid db_appnum db_key_size db_salt db_block_size db_load_factor db_base].
  pose proof (rekey_lf_le _ _ A4). pose proof (cap_104 _ A2). splits; auto; try lia.
Qed.

Lemma drec_old p r : dbp_ok p -> drec_ok p r -> old_ok (db_key_size p) r.
Proof.
  intros Hp. pose proof (p_bs p Hp) as Hb. pose proof (p_cap p Hp) as Hc.
  intros [H|[_ H]]; destruct r as [k v|es sp]; cbn [old_ok rec_ok] in *; auto; try contradiction.
  - destruct H as (_ & H & _). rewrite H. destruct (cap_bound (db_block_size p)); lia.
  - destruct H as (_ & H & _). unfold bucket_size. lia.
Qed.

Lemma drec_rekeyed p a lf nb r : dbp_ok p -> drec_ok p r -> drec_ok (rekeyed p a lf nb) r.
Proof.
  intros Hp. pose proof (p_bs p Hp) as Hb. pose proof (p_cap p Hp) as Hc.
  intros [H|[_ H]]; destruct r as [k v|es sp]; unfold drec_ok, rekeyed;
    cbn [db_key_size db_block_size db_mixed rec_ok] in *; auto; try contradiction.
  right. split; auto. destruct H as (A & B & C). splits; auto. rewrite B.
  destruct (cap_bound (db_block_size p)) as [X|X]; unfold bucket_size in X; lia.
Qed.

Lemma dents_ok_salt e p q recs : Forall entry_ok (dents e p recs) -> Forall entry_ok (dents e q recs).
Proof.
  unfold dents. rewrite !Forall_map. apply Forall_impl. intros [[o k] v] (A & B & _).
  unfold entry_of, entry_ok in *. cbn [en_off en_size en_hash] in *. splits; auto. apply hash_lt.
Qed.

Lemma dents_spills e p kh recs news : spills_only kh news -> dents e p (recs ++ news) = dents e p recs.
Proof.
  intros Hs. unfold dents. rewrite placed_app, datas_app, map_app.
  rewrite <- (app_nil_r (map _ (datas (placed recs)))) at 2. f_equal.
  generalize (dat_hdr_size + blen (enc_recs recs)) as o.
  induction Hs as [|r l (_ & es & sp & ->) Hl IH]; intros o; [reflexivity|]. cbn [place datas]. apply IH.
Qed.

Lemma bwrite_prefix d x : blen x <= blen d -> bwrite 0 d x = d.
Proof.
  intros H. rewrite <- (app_nil_r d) at 2. unfold bwrite. change (0 - blen x) with 0.
  change (zeros 0) with (@nil N). rewrite app_nil_r. rewrite btake_0. cbn [app].
  rewrite bdrop_all by lia. reflexivity.
Qed.

Lemma bwrite_last x n : 1 <= n -> bwrite (blen x + n - 1) [0] x = x ++ zeros n.
Proof.
  intros H. unfold bwrite. replace (blen x + n - 1 - blen x) with (n - 1) by lia.
  rewrite btake_all by (rewrite blen_app, blen_zeros; lia).
  rewrite bdrop_all by (rewrite blen_app, blen_zeros; lia).
  rewrite app_nil_r, <- app_assoc. f_equal. change [0] with (zeros 1). rewrite zeros_app. f_equal. lia.
Qed.

Section Run.
Variables (e : env) (p0 : dbp) (a : rekey_args) (lf nb : N).
Hypothesis Hp0 : dbp_ok p0.
Hypothesis Ha : rekey_ready a lf nb.
Notation p := (rekeyed p0 a lf nb).
Notation bs := (ra_block_size a).
Notation hdr := (db_hdr p0).
Definition rk_kh : key_header := rekey_key_header e a (db_dh p0) lf nb.

Lemma rk_kh_for : kh_for rk_kh p.
Proof using. unfold kh_for, rk_kh. cbn. auto. Qed.

(** The files after rekey_create. *)
Definition rk_start_key : bytes := db_kb e p ++ zeros (nb * bs).
Definition rk_log (D : N) : bytes := enc_log_header (rekey_log_header rk_kh D).

Lemma run_rekey_start recs w : wget w FDat = Some (hdr ++ enc_recs recs) -> wget w FLog = None ->
  run rekey_start w = (w, Ok (db_dh p0, blen (hdr ++ enc_recs recs))).
Proof using Hp0.
  intros D L. unfold rekey_start.
  rewrite (run_ebind_ok _ _ _ _ _ (run_open _ _ _ D)).
  rewrite (run_ebind_ok _ _ _ _ _ (read_dh p0 Hp0 _ _ D)).
  rewrite (verify_dat_ok p0 Hp0). erewrite run_ebind_ok by reflexivity.
  rewrite (run_ebind_ok _ _ _ _ _ (run_size _ _ _ D)).
  rewrite (run_bind_eq _ _ _ _ _ (run_open_none _ _ L)). reflexivity.
Qed.

Lemma kb_key : db_kb e p = enc_key_header_block rk_kh.
Proof using. reflexivity. Qed.

Lemma run_rekey_create D w : wget w FKey = None -> wget w FLog = None ->
  run (rekey_create rk_kh D) w =
    (wset (wset w FKey (Some rk_start_key)) FLog (Some (rk_log D)), Ok tt).
Proof using Ha Hp0.
  intros K L. pose proof Ha as (A1 & A2 & A3 & A4 & A5 & A6 & A7 & A8). unfold rekey_create.
  rewrite (run_ebind_ok _ _ _ _ _ (run_create _ _ K)).
  erewrite run_ebind_ok by (eapply run_write; apply wget_wset_same). rewrite wset_wset.
  rewrite bwrite_end by reflexivity. cbn [app].
  erewrite run_ebind_ok by (eapply run_sync; apply wget_wset_same).
  erewrite run_ebind_ok by (eapply run_create; rewrite wget_wset_other by discriminate; exact L).
  erewrite run_ebind_ok by (eapply run_append; [apply wget_wset_same|reflexivity]). rewrite wset_wset.
  cbn [app].
  erewrite run_ebind_ok by (eapply run_sync; apply wget_wset_same).
  erewrite run_ebind_ok by (eapply run_write; rewrite wget_wset_other by discriminate; apply wget_wset_same).
  erewrite run_ebind_ok by (eapply run_sync; apply wget_wset_same).
  erewrite run_ebind_ok by (eapply run_write; apply wget_wset_same). rewrite wset_wset.
  erewrite run_sync by apply wget_wset_same.
  pose proof (rekeyed_ok _ _ _ _ Hp0 Ha) as Hp.
  assert (Hk : blen (db_kb e p) = bs) by apply (p_kb e p Hp).
  rewrite bwrite_prefix.
  2: { unfold enc_key_header_block. rewrite blen_app. lia. }
  rewrite <- kb_key. change (kh_buckets rk_kh) with nb. change (kh_block_size rk_kh) with bs.
  rewrite (N.mod_small (nb + 1)) by nia.
  replace (((nb + 1) * bs + 18446744073709551615) mod 18446744073709551616) with (blen (db_kb e p) + nb * bs - 1).
  2: { rewrite Hk. apply N.mod_unique with (q := 1); nia. }
  rewrite bwrite_last by nia. fold rk_start_key. fold (rk_log D).
  destruct w; reflexivity.
Qed.

Lemma rk_start_key_ok : rk_start_key = db_kb e p ++ flat_map (kblock bs) [] ++ zeros ((nb - 0) * bs).
Proof using. unfold rk_start_key. cbn [flat_map app]. f_equal. f_equal. lia. Qed.

(** The calls of progress. *)
Definition rk_calls (D : N) (t : list (N * N)) : Prop :=
  let c := rekey_chunk a in
  calls_ok (rekey_work a nb D) ((nb + c - 1) / c * D) t.

Lemma rekey_run recs w :
  let d := hdr ++ enc_recs recs in
  wget w FDat = Some d -> wget w FKey = None -> wget w FLog = None ->
  Forall (drec_ok p0) recs -> NoDup (map fst (kvs recs)) -> Forall entry_ok (dents e p0 recs) ->
  low 0 recs ->
  exists news, spills_only (db_kh e p nb) news /\ blen news <= blen (kvs recs) /\
    ((exists t T, let w' := World (Some (hdr ++ enc_recs (recs ++ news))) (Some (kfile bs (db_kb e p) T)) None in
       run (rekey e a) w = (w', Ok t) /\ disk e p (recs ++ news) T w' /\ blen T = nb /\ rk_calls (blen d) t) \/
     (exists w', run (rekey e a) w = (w', Er EAssert) /\ too_big datbuf w' (recs ++ news))).
Proof using Hp0 Ha.
  intros d Hd HK HL Hr Hnd He Hlow0.
  assert (HD : blen d < 18446744073709551616) by (pose proof (data_short e p0 recs Hp0 Hr He Hlow0) as Q; fold d in Q; lia).
  pose proof (rekeyed_ok _ _ _ _ Hp0 Ha) as Hp.
  pose proof Ha as (A1 & A2 & A3 & A4 & A5 & A6 & A7 & A8).
  set (D := blen d) in *. set (c := rekey_chunk a). set (total := rekey_work a nb D).
  assert (Hc : 1 <= c) by (unfold c, rekey_chunk; lia).
  set (w1 := wset (wset w FKey (Some rk_start_key)) FLog (Some (rk_log D))).
  set (dw := bw_make FDat true D rekey_write_size).
  assert (Run : run (rekey e a) w = run (rekey_build e a rk_kh D) w1).
  { unfold rekey. rewrite (run_ebind_ok _ _ _ _ _ (run_rekey_start recs w Hd HL)). cbv beta iota.
    rewrite A4, A6. pose proof (cap_104 _ A2) as Q. replace (bucket_capacity bs =? 0) with false by lia.
    cbv zeta. fold rk_kh. fold d. fold D. rewrite (run_ebind_ok _ _ _ _ _ (run_rekey_create D w HK HL)). reflexivity. }
  assert (W1 : wget w1 FDat = Some d) by (unfold w1; rewrite !wget_wset_other by discriminate; exact Hd).
  assert (Hold : Forall (old_ok (db_key_size p)) recs).
  { eapply Forall_impl; [|exact Hr]. intros r. apply drec_old. exact Hp0. }
  destruct (all_passes e p rk_kh Hp rk_kh_for recs Hold c total Hc HD (N.to_nat nb) 0 0 [] [] [(0, total)] dw w1 0 [] rk_start_key)
    as (n & news & w2 & res & Hn & Hl & Hs & Hcnt & Hres).
  { cbn [rekeyed db_base]. lia. }
  { reflexivity. }
  { left. reflexivity. }
  { symmetry. apply N.min_0_l. }
  { rewrite app_nil_r. split; [|apply low_init; unfold D, d; rewrite blen_app, (p_hdr p); apply N.le_refl]. split.
    - exists d. assert (X : w1 = wset w1 FDat (wget w1 FDat)) by (symmetry; apply wset_same). rewrite W1 in X. exact X.
    - split; [apply bw_make_inv; exact W1|].
      split; unfold datbuf, dw, bw_make, rekey_write_size; cbn [bw_buf bw_cap]; rewrite ?blen_nil; lia. }
  { rewrite app_nil_r. exact W1. }
  { unfold w1. rewrite wget_wset_other by discriminate. apply wget_wset_same. }
  { apply rk_start_key_ok. }
  { intros m Hm. change (blen (@nil bent)) with 0 in Hm. lia. }
  { apply Forall_nil. }
  { split; [repeat constructor|]. repeat constructor; cbn [fst snd]; lia. }
  { lia. }
  rewrite app_nil_r in Hres.
  assert (Hlr : run (loop (rekey_pass e rk_kh D c total) (0, [(0, total)], dw)) w1 = (w2, res)).
  { apply (loop_run _ _ _ _ _ _ Hl). nia. }
  exists news. split; [exact Hs|]. split.
  { eapply N.le_trans; [exact Hcnt|]. rewrite <- (blen_dents e p). 
    generalize (dents e p recs). clear. induction l as [|x l IH]; [apply N.le_refl|]. cbn [filter].
    destruct (later p 0 x); rewrite !blen_cons; lia. }
  destruct res as [[t1 dw1]|er].
  - left. destruct Hres as (T & x1 & HTl & Hw2 & Hx2 & HK2 & HL2 & HT & Hcalls).
    exists t1, T. cbv zeta.
    destruct (wst_flush _ _ _ _ datbuf_ok _ _ _ Hw2) as (w3 & dw2 & Hfl & Hw3 & Hd3).
    assert (K3 : wget w3 FKey = Some (kfile bs (db_kb e p) T) /\ wget w3 FLog = Some (rk_log D)).
    { destruct Hw3 as [[(d3 & ->) _] _]. rewrite !wget_wset_other by discriminate. split; [exact HK2|].
      rewrite HL2. unfold w1. apply wget_wset_same. }
    destruct K3 as [K3 L3].
    assert (W3 : wset w3 FLog None = World (Some (hdr ++ enc_recs (recs ++ news))) (Some (kfile bs (db_kb e p) T)) None).
    { clear - Hd3 K3. destruct w3 as [x y z]. change (x = Some (hdr ++ enc_recs (recs ++ news))) in Hd3.
      change (y = Some (kfile bs (db_kb e p) T)) in K3. rewrite Hd3, K3. reflexivity. }
    split.
    { rewrite Run. unfold rekey_build. change (kh_buckets rk_kh) with nb. fold total. cbv zeta. fold dw. fold c.
      rewrite (run_ebind_ok _ _ _ _ _ Hlr). cbv beta iota.
      rewrite (run_ebind_ok _ _ _ _ _ Hfl).
      rewrite (run_ebind_ok _ _ _ _ _ (run_erase _ _ _ L3)). rewrite W3. reflexivity. }
    split; [|split; [exact HTl|exact Hcalls]].
    constructor; try reflexivity.
    + apply Forall_app. split.
      * eapply Forall_impl; [|exact Hr]. intros r. apply drec_rekeyed. exact Hp0.
      * eapply Forall_impl; [|exact Hs]. intros r [Hrr _]. left. exact Hrr.
    + rewrite kvs_app, (kvs_spills _ _ Hs), app_nil_r. exact Hnd.
    + rewrite (dents_spills _ _ _ _ _ Hs). eapply dents_ok_salt; exact He.
    + exists (ceil_pow2 nb). constructor.
      * rewrite HTl. apply (NB_pow p Hp).
      * intros m Hm. rewrite (dents_spills _ _ _ _ _ Hs), HTl. apply HT. exact Hm.
    + rewrite HTl. cbn [rekeyed db_base]. lia.
    + apply low_app; [exact Hlow0|]. rewrite <- (p_hdr p0), <- blen_app. exact (proj2 Hw2).
  - right. destruct Hres as [-> Hbig]. exists w2. split; [|exact Hbig].
    rewrite Run. unfold rekey_build. change (kh_buckets rk_kh) with nb. fold total. cbv zeta. fold dw. fold c.
    apply run_ebind_er. exact Hlr.
Qed.
End Run.
