(** Opening, closing and creating. *)
From Verif Require Import Model.Bytes Model.Err Model.Field Model.Format Model.IO
  Model.BulkIO Model.Bucket Model.Pool Model.Recover Model.Create Model.Store
  Proofs.BytesFacts Proofs.FieldFacts Proofs.IOFacts Proofs.PoolFacts Proofs.BucketFacts
  Proofs.BulkFacts Proofs.HashFacts Proofs.Table Proofs.Lookup Proofs.SplitFacts
  Proofs.CommitFacts Proofs.CommitInv Proofs.CommitRun Proofs.HeaderFacts Proofs.StoreInv.

Section Open.
Variables (e : env) (p : dbp).
Hypothesis Hp : dbp_ok p.
Notation bs := (db_block_size p).
Notation ks := (db_key_size p).

Lemma p_dat_fits : dat_fits (db_dh p).
Proof. destruct Hp as (A & B & C & D & _). unfold dat_fits. simpl. splits; auto. reflexivity. Qed.
Lemma p_key_fits B : key_fits (db_kh e p B).
Proof.
  destruct Hp as (H1 & H2 & H3 & H4 & H5 & H6 & H7 & H8 & H9 & _). unfold key_fits. simpl.
  splits; auto. reflexivity. apply pepper_lt.
Qed.

Lemma verify_dat_ok : verify_dat (db_dh p) = Ok tt.
Proof.
  unfold verify_dat. cbn [db_dh dh_type dh_version dh_key_size]. rewrite beq_refl, N.eqb_refl.
  destruct Hp as (_ & _ & H3 & _). replace (ks <? 1) with false by lia. reflexivity.
Qed.

Lemma verify_key_ok B : 1 <= B -> verify_key (e_hasher e) (db_kh e p B) = Ok tt.
Proof.
  intros HB. unfold verify_key.
  cbn [db_kh kh_type kh_version kh_key_size kh_pepper kh_load_factor kh_capacity kh_buckets kh_salt].
  rewrite beq_refl, !N.eqb_refl. destruct Hp as (_ & _ & H3 & _ & _ & _ & H7 & H8 & _).
  replace (ks <? 1) with false by lia.
  replace (db_load_factor p <? 1) with false by lia.
  replace (bucket_capacity bs <? 1) with false by lia.
  replace (B <? 1) with false by lia. reflexivity.
Qed.

Lemma verify_dat_key_ok B : 1 <= B -> verify_dat_key (e_hasher e) (db_dh p) (db_kh e p B) = Ok tt.
Proof.
  intros HB. unfold verify_dat_key. rewrite (verify_key_ok B HB). unfold rbind.
  cbn [db_kh kh_uid kh_appnum kh_key_size db_dh dh_uid dh_appnum dh_key_size].
  rewrite !N.eqb_refl. reflexivity.
Qed.

Lemma read_dh w c : wget w FDat = Some (db_hdr p ++ c) -> run read_dat_header w = (w, Ok (db_dh p)).
Proof. intros Hw. rewrite (run_read_dat_header w (db_dh p) c); auto. apply p_dat_fits. Qed.

Lemma kfile_len T recs w : disk e p recs T w ->
  blen (kfile bs (db_kb e p) T) = (blen T + 1) * bs.
Proof.
  intros Hd. apply blen_kfile; [apply p_kb; auto|].
  apply (T_fits (db_kh e p 0) (p_cap p Hp)). apply (disk_bent e p _ _ _ Hd).
Qed.

(** Files of a database are shorter than 2^64 bytes. *)
Lemma kvs_short recs : Forall (drec_ok p) recs -> 7 * blen (kvs recs) <= blen (enc_recs recs).
Proof using.
  induction 1 as [|r recs Hr _ IH]; [reflexivity|]. unfold enc_recs in *. cbn [flat_map]. rewrite blen_app.
  destruct r as [k v|es sp]; cbn [kvs].
  - rewrite blen_cons. cbn [enc_rec]. rewrite !blen_app, blen_wr48. destruct Hr as [(X1 & X2 & X3)|[_ []]]. lia.
  - lia.
Qed.

Lemma disk_fit recs T w : young p -> disk e p recs T w ->
  blen (db_hdr p ++ enc_recs recs) < 18446744073709551616 /\
  blen (kfile bs (db_kb e p) T) < 18446744073709551616.
Proof.
  intros Hy Hd. rewrite (kfile_len _ _ _ Hd). destruct Hd as [_ _ Hr _ He _ HB Hl].
  pose proof (data_short e p recs Hp Hr He Hl) as HD. pose proof (kvs_short recs Hr) as HK.
  split; [lia|]. rewrite blen_app in HD. unfold young in Hy. assert (Hb : bs < 65536) by apply Hp.
  assert ((blen T + 1) * bs <= 120000000000000 * 65536) by (apply N.mul_le_mono; lia). lia.
Qed.

Lemma read_kh recs T w : disk e p recs T w -> run read_key_header w = (w, Ok (db_kh e p (blen T))).
Proof.
  intros Hd. rewrite (run_read_key_header w (db_kh e p 0) (flat_map (kblock bs) T)).
  - change (enc_key_header_block (db_kh e p 0) ++ flat_map (kblock bs) T) with (kfile bs (db_kb e p) T).
    rewrite (kfile_len _ _ _ Hd). cbn [db_kh kh_block_size].
    rewrite buckets_of_kfile; [reflexivity|].
    pose proof (block_min bs (p_cap p Hp)). unfold key_hdr_size in *. lia.
  - apply p_key_fits.
  - apply (dk_key _ _ _ _ _ Hd).
Qed.

Lemma key_size_gt recs T w : disk e p recs T w ->
  (blen (kfile bs (db_kb e p) T) <=? key_hdr_size) = false.
Proof.
  intros Hd. rewrite (kfile_len _ _ _ Hd). pose proof (block_min bs (p_cap p Hp)).
  destruct (disk_pow e p Hp _ _ _ Hd) as (H1 & _). unfold key_hdr_size in *. apply N.leb_gt. nia.
Qed.

(** Recovery without a log, or with one too short to hold a header. *)
Lemma recover_nolog recs T w :
  disk e p recs T w -> wget w FLog = None -> run (recover e) w = (w, Ok tt).
Proof.
  intros Hd Hl. pose proof (dk_dat _ _ _ _ _ Hd) as D. pose proof (dk_key _ _ _ _ _ Hd) as K.
  unfold recover.
  rewrite (run_ebind_ok _ _ _ _ _ (run_open _ _ _ D)).
  rewrite (run_ebind_ok _ _ _ _ _ (run_size _ _ _ D)).
  rewrite (run_ebind_ok _ _ _ _ _ (read_dh _ _ D)).
  rewrite verify_dat_ok. erewrite run_ebind_ok by reflexivity.
  rewrite (run_ebind_ok _ _ _ _ _ (run_open _ _ _ K)).
  rewrite (run_ebind_ok _ _ _ _ _ (run_size _ _ _ K)).
  rewrite (key_size_gt _ _ _ Hd).
  rewrite (run_bind_eq _ _ _ _ _ (run_open_none _ _ Hl)). reflexivity.
Qed.

Lemma recover_shortlog recs T w l :
  disk e p recs T w -> wget w FLog = Some l -> blen l < log_hdr_size ->
  run (recover e) w = (wset w FLog None, Ok tt).
Proof.
  intros Hd Hl Hlen. pose proof (dk_dat _ _ _ _ _ Hd) as D. pose proof (dk_key _ _ _ _ _ Hd) as K.
  unfold recover.
  rewrite (run_ebind_ok _ _ _ _ _ (run_open _ _ _ D)).
  rewrite (run_ebind_ok _ _ _ _ _ (run_size _ _ _ D)).
  rewrite (run_ebind_ok _ _ _ _ _ (read_dh _ _ D)).
  rewrite verify_dat_ok. erewrite run_ebind_ok by reflexivity.
  rewrite (run_ebind_ok _ _ _ _ _ (run_open _ _ _ K)).
  rewrite (run_ebind_ok _ _ _ _ _ (run_size _ _ _ K)).
  rewrite (key_size_gt _ _ _ Hd).
  rewrite (run_bind_eq _ _ _ _ _ (run_open _ _ _ Hl)).
  rewrite (run_ebind_ok _ _ _ _ _ (run_size _ _ _ Hl)).
  assert (X : run read_log_header w = (w, Er short_read)).
  { unfold read_log_header. erewrite run_ebind_er; [reflexivity|].
    eapply run_read_short; eauto. discriminate. }
  rewrite (run_bind_eq _ _ _ _ _ X). unfold recover_clear_log.
  rewrite (run_ebind_ok _ _ _ _ _ (run_trunc _ _ _ _ Hl)).
  erewrite run_ebind_ok by (eapply run_sync; apply wget_wset_same).
  erewrite run_erase by apply wget_wset_same. rewrite wset_wset. reflexivity.
Qed.

(** The rest of open. *)
Lemma open_after_recover recs T w w' :
  run (recover e) w = (w', Ok tt) -> disk e p recs T w' -> wget w' FLog = None ->
  let s := Store (db_kh e p (blen T)) pool_empty pool_empty [] (db_thresh p / 2) (db_thresh p)
             (blen T) (ceil_pow2 (blen T)) None in
  run (store_open e) w = (wset w' FLog (Some []), Ok s) /\ sinv e p recs T s (wset w' FLog (Some [])).
Proof.
  intros Hr Hd Hl s. set (w1 := wset w' FLog (Some [])).
  assert (Hd1 : disk e p recs T w1) by (apply disk_wlog; auto).
  pose proof (dk_dat _ _ _ _ _ Hd) as D. pose proof (dk_key _ _ _ _ _ Hd) as K.
  destruct (disk_pow e p Hp _ _ _ Hd) as (H1 & _). split.
  - unfold store_open.
    rewrite (run_ebind_ok _ _ _ _ _ Hr).
    rewrite (run_ebind_ok _ _ _ _ _ (run_open _ _ _ D)).
    rewrite (run_ebind_ok _ _ _ _ _ (run_open _ _ _ K)).
    rewrite (run_ebind_ok _ _ _ _ _ (run_create _ _ Hl)). fold w1.
    rewrite (run_ebind_ok _ _ _ _ _ (read_dh w1 _ (dk_dat _ _ _ _ _ Hd1))).
    rewrite verify_dat_ok. erewrite run_ebind_ok by reflexivity.
    rewrite (run_ebind_ok _ _ _ _ _ (read_kh _ _ w1 Hd1)).
    rewrite (verify_key_ok _ H1). erewrite run_ebind_ok by reflexivity.
    rewrite (verify_dat_key_ok _ H1). erewrite run_ebind_ok by reflexivity.
    cbv zeta. cbn [db_kh kh_buckets kh_load_factor kh_capacity].
    replace (blen T <? 1) with false by lia. reflexivity.
  - constructor; cbn [s st_kh st_p0 st_p1 st_c1 st_frac st_thresh st_buckets st_modulus st_ec pool_empty pl_map]; auto.
    + eauto.
    + pose proof (p_thresh p). apply N.div_lt; lia.
    + simpl. apply Hd.
Qed.

Lemma open_ok recs T w :
  disk e p recs T w ->
  (wget w FLog = None \/ exists l, wget w FLog = Some l /\ blen l < log_hdr_size) ->
  let s := Store (db_kh e p (blen T)) pool_empty pool_empty [] (db_thresh p / 2) (db_thresh p)
             (blen T) (ceil_pow2 (blen T)) None in
  run (store_open e) w = (wset w FLog (Some []), Ok s) /\ sinv e p recs T s (wset w FLog (Some [])).
Proof.
  intros Hd [Hl|(l & Hl & Hlen)].
  - apply open_after_recover; auto. eapply recover_nolog; eauto.
  - assert (X : wset w FLog (Some []) = wset (wset w FLog None) FLog (Some [])) by (rewrite wset_wset; auto).
    rewrite X. apply open_after_recover; auto.
    + eapply recover_shortlog; eauto.
    + apply disk_wlog. auto.
Qed.

(** A new database: no records and one empty bucket. *)
Definition new_world : world :=
  World (Some (db_hdr p)) (Some (kfile bs (db_kb e p) [([], 0)])) (Some []).

Lemma new_disk : disk e p [] [([], 0)] new_world.
Proof.
  constructor; auto; try constructor.
  - exists 1. constructor.
    + exists 0. change (blen [(@nil entry, 0)]) with 1. split; [reflexivity|]. simpl. lia.
    + intros n Hn. change (blen [(@nil entry, 0)]) with 1 in Hn. assert (n = 0) by lia. subst n.
      rewrite nthN_0. constructor; simpl; auto.
      * split; constructor.
      * rewrite blen_nil. lia.
      * exists []. split; [constructor|]. constructor.
  - change (blen [(@nil entry, 0)]) with 1. change (blen (kvs [])) with 0.
    assert (1 <= db_base p) by apply Hp. lia.
  - intros o es sp [].
Qed.
End Open.

(** Arguments of create that describe the database [p]. *)
Definition args_of (p : dbp) (lf : float) : create_args :=
  CreateArgs (db_appnum p) (db_uid p) (db_salt p) (db_key_size p) (db_block_size p) lf.

Lemma create_ok e p lf w :
  dbp_ok p -> lf_invalid lf = false -> lf_field lf = Some (db_load_factor p) ->
  wget w FDat = None -> wget w FKey = None -> wget w FLog = None ->
  run (create e (args_of p lf)) w = (new_world e p, Ok tt).
Proof.
  intros Hp Hlf Hf HD HK HL. unfold create, args_of.
  cbn [ca_key_size ca_block_size ca_load_factor].
  pose proof Hp as (H1 & H2 & H3 & H4 & H5 & H6 & H7 & H8 & H9 & _).
  replace (db_key_size p <? 1) with false by lia.
  replace (65535 <? db_block_size p) with false by lia. rewrite Hlf.
  replace (bucket_capacity (db_block_size p) <? 1) with false by lia.
  destruct w as [wd wk wl]. cbn in HD, HK, HL. unfold wget in *. cbn [w_dat w_key w_log] in *. subst wd wk wl.
  rewrite (run_bind_eq _ _ _ _ _ (run_create FDat (World None None None) eq_refl)). cbv iota beta.
  erewrite run_bind_eq by (apply (run_create FKey); reflexivity). cbv iota beta.
  erewrite run_bind_eq by (apply (run_create FLog); reflexivity). cbv iota beta.
  unfold wset. cbn [w_dat w_key w_log].
  set (w0 := World (Some []) (Some []) (Some [])).
  assert (X : run (create_fill e (CreateArgs (db_appnum p) (db_uid p) (db_salt p) (db_key_size p) (db_block_size p) lf)) w0
     = (new_world e p, Ok tt)).
  { unfold create_fill. cbn [ca_load_factor ca_block_size]. rewrite Hf.
    erewrite run_ebind_ok by (eapply (run_append FDat); [reflexivity|reflexivity]).
    unfold write_key_header. cbn [create_key_header kh_block_size ca_block_size].
    pose proof (block_min _ H7) as Hm.
    replace (db_block_size p <? key_hdr_size) with false by (symmetry; apply N.ltb_ge; exact Hm).
    erewrite run_ebind_ok by (eapply (run_append FKey); [reflexivity|reflexivity]).
    unfold bk_write.
    change (enc_key_header_block _) with (db_kb e p).
    erewrite run_ebind_ok by (eapply (run_append FKey); [reflexivity|
       cbn [app]; symmetry; apply (p_kb e p Hp)]).
    erewrite run_ebind_ok by (eapply run_sync; reflexivity).
    erewrite run_ebind_ok by (eapply run_sync; reflexivity).
    erewrite run_sync by reflexivity.
    unfold new_world, wset, kfile, w0. cbn [w_dat w_key w_log app flat_map fst snd kblock].
    assert (Hpad : bk_padded (bk_empty (db_block_size p)) = enc_block (db_block_size p) [] 0).
    { apply padded_rep. apply bk_empty_rep. unfold key_hdr_size in Hm. lia. }
    rewrite Hpad. unfold kblock. cbn [fst snd]. rewrite app_nil_r. reflexivity. }
  rewrite (run_bind_eq _ _ _ _ _ X). reflexivity.
Qed.
