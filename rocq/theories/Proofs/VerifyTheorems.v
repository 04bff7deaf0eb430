(** The statements about verify() in the form of Props/VerifyProps.v: databases reached
    by a history of calls. *)
From Verif Require Import Model.Bytes Model.Err Model.Field Model.Format Model.IO
  Model.BulkIO Model.Bucket Model.Pool Model.Recover Model.Create Model.Store Model.History Model.Visit
  Model.Verify Model.Events
  Proofs.BytesFacts Proofs.FieldFacts Proofs.IOFacts Proofs.PoolFacts Proofs.BucketFacts
  Proofs.BulkFacts Proofs.HashFacts Proofs.Table Proofs.Lookup Proofs.SplitFacts
  Proofs.CommitFacts Proofs.CommitInv Proofs.CommitRun Proofs.HeaderFacts Proofs.StoreInv
  Proofs.OpenFacts Proofs.RecoverFacts Proofs.LifeFacts Proofs.EventFacts
  Proofs.FormatFacts Proofs.RefuseFacts Proofs.VisitFacts Proofs.WrittenFacts Proofs.VerifyFacts
  Proofs.VerifyFast
  Spec SpecFormat SpecHeader SpecVisit SpecVerify.

Lemma be_value_wr48 n : n < 281474976710656 -> be_value (wr48 n) = n.
Proof.
  intros Hn. rewrite <- rd48_be; [apply rd_wr48; exact Hn| |reflexivity].
  apply bytes_ok_wr48.
Qed.

Lemma spill_field es sp (a c : bytes) : sp < 281474976710656 ->
  be_value (bsub (blen a + 2) 6 (a ++ enc_bucket es sp ++ c)) = sp.
Proof.
  intros Hs. unfold enc_bucket.
  replace (a ++ (wr16 (blen es) ++ wr48 sp ++ enc_entries es) ++ c)
    with ((a ++ wr16 (blen es)) ++ wr48 sp ++ (enc_entries es ++ c)) by (rewrite <- !app_assoc; reflexivity).
  rewrite bsub_app_eq.
  - apply be_value_wr48; auto.
  - rewrite blen_app, blen_wr16. reflexivity.
  - symmetry. apply blen_wr48.
Qed.

Lemma bsub_split (l x : bytes) o : o + blen x <= blen l -> bsub o (blen x) l = x -> exists a c, l = a ++ x ++ c /\ blen a = o.
Proof.
  intros Hl Hx. exists (btake o l), (bdrop (o + blen x) l). split.
  - rewrite <- Hx at 1. unfold bsub. rewrite <- (btake_bdrop o l) at 1. f_equal.
    rewrite <- (btake_bdrop (blen x) (bdrop o l)) at 1. f_equal. apply bdrop_bdrop.
  - rewrite blen_btake. lia.
Qed.

Section Db.
Variables (e : env) (p : dbp) (recs : list drec) (T : list bent) (w : world).
Hypothesis Hp : dbp_ok p.
Hypothesis Hum : unmixed p.
Hypothesis Hd : disk e p recs T w.
Hypothesis Hf : files_fit w.
Notation bs := (db_block_size p).
Notation ks := (db_key_size p).
Notation B := (blen T).
Notation M := (ceil_pow2 (blen T)).
Notation kh := (db_kh e p (blen T)).
Notation d := (db_hdr p ++ enc_recs recs).
Notation cap := (bucket_capacity bs).
Notation P := (placed recs).
Notation E := (dents e p recs).
Notation key := (kfile bs (db_kb e p) T).
Notation lens := (lens e p recs T (N.to_nat B)).
Notation rs := (map rec_spec recs).

Lemma bs_range : 104 <= bs <= 65535.
Proof using Hp. split; [exact (block_min bs (p_cap p Hp))|apply (p_bs p Hp)]. Qed.

Lemma links_of sp ces : chain bs P sp ces -> forall c, blen ces = c * cap -> spill_links d sp c.
Proof using Hp Hum Hd.
  destruct (disk_holds e p recs T w Hd) as [Hho _]. pose proof (p_cap p Hp) as Hc1.
  induction 1 as [|sp es sp' ces H8 Hsp Hin Hlen [Hs Ho] Hdec Hch IH]; intros c Hc.
  - replace c with 0; [constructor|]. rewrite blen_nil in Hc. nia.
  - rewrite blen_app, Hlen in Hc. replace c with ((c - 1) + 1) by nia.
    destruct (Hho _ _ Hin) as [A B']. cbn [enc_rec] in A, B'.
    set (x := wr48 0 ++ wr16 (bucket_size (blen es)) ++ enc_bucket es sp') in *.
    destruct (bsub_split d x (sp - 8) A B') as (a & b & Ed & La).
    assert (Ed2 : d = (a ++ wr48 0 ++ wr16 (bucket_size (blen es))) ++ enc_bucket es sp' ++ b).
    { rewrite Ed. unfold x. rewrite <- !app_assoc. reflexivity. }
    assert (Ls : blen (a ++ wr48 0 ++ wr16 (bucket_size (blen es))) = sp).
    { rewrite !blen_app, blen_wr48, blen_wr16. lia. }
    constructor.
    + lia.
    + rewrite Ed2, blen_app, Ls, blen_app, blen_enc_bucket. unfold bucket_size. lia.
    + rewrite Ed2 at 2. rewrite <- Ls at 1. rewrite spill_field by lia. apply IH. nia.
Qed.

Lemma lens_blen : blen lens = B.
Proof using. unfold VerifyFacts.lens, upto. rewrite !blen_map. unfold blen. rewrite seq_length. lia. Qed.

Lemma lens_nth n : n < B -> nthN lens n 0 = clen e p recs T n.
Proof using.
  intros Hn. unfold VerifyFacts.lens, upto, nthN.
  rewrite (nth_indep _ 0 (clen e p recs T (N.of_nat 0))) by (rewrite !map_length, seq_length; lia).
  rewrite (map_nth (clen e p recs T)). rewrite (map_nth N.of_nat), seq_nth by lia. f_equal. lia.
Qed.

Lemma chains_of : chain_lengths bs B d key lens.
Proof using Hp Hum Hd.
  split; [apply lens_blen|]. intros n Hn. rewrite lens_nth by auto.
  destruct (bucket_at e p recs T w Hp Hum Hd n Hn) as (b & es & sp & ces & _ & Hnth & R & O & Hch & Hperm).
  destruct (chain_count p _ _ _ Hch) as (c & Hc).
  rewrite (clen_chain e p recs T w Hp Hum Hd n es sp ces c Hn Hnth Hperm Hc).
  destruct (kfile_block bs (db_kb e p) T n (p_kb e p Hp) (fits_T e p recs T w Hp Hum Hd) Hn) as [Hle Hb].
  change (nthN T n ([], 0)) with (nthN T n b0) in Hb. rewrite Hnth in Hb.
  assert (Lk : blen (kblock bs (es, sp)) = bs).
  { unfold kblock. cbn [fst snd]. apply blen_enc_block. eapply rep_size_le; eauto. }
  destruct (bsub_split key (kblock bs (es, sp)) ((n + 1) * bs)) as (a & c' & Ek & La).
  - rewrite Lk. exact Hle.
  - rewrite Lk. exact Hb.
  - unfold kblock, enc_block in Ek. cbn [fst snd] in Ek. rewrite <- app_assoc in Ek.
    replace (be_value (bsub ((n + 1) * bs + 2) 6 key)) with sp.
    + eapply links_of; eauto.
    + symmetry. rewrite <- La, Ek. apply spill_field. eapply rep_spill_lt; eauto.
Qed.

Lemma is_spill_srec l : count is_spill (map rec_spec l) = count is_srec l.
Proof using. induction l as [|[k v|es sp] l IH]; cbn [map count is_spill is_srec rec_spec]; lia. Qed.

Lemma database_of : database ks bs d key rs lens.
Proof using Hp Hum Hd.
  constructor.
  - exists (db_hdr p). split; [apply (p_hdr p)|]. rewrite enc_recs_images. reflexivity.
  - apply (rec_spec_ok p); [|apply Hd]. apply bs_range.
  - rewrite lens_blen. apply (kfile_len e p Hp T recs w Hd).
  - rewrite lens_blen. apply chains_of.
Qed.

Lemma size_cap : 8 + bucket_size cap = 8 + (8 + 18 * capacity bs).
Proof using Hp. rewrite capacity_eq by apply bs_range. unfold bucket_size. lia. Qed.

Lemma vtrue_reports alg tot : reports (vtrue e p recs T alg tot) (true_stats bs rs lens).
Proof using Hp.
  unfold reports, true_stats, vtrue.
  cbn [s_values s_value_bytes s_spills s_spill_bytes s_spills_used s_spill_bytes_used s_hist]. vproj.
  rewrite values_kvs, is_spill_srec, size_cap, bumps_spec. unfold vbytes. splits; reflexivity.
Qed.

Lemma spill_size_116 : spill_size_ok p = (116 <=? bs).
Proof using Hp.
  clear Hd Hf. pose proof bs_range as X. unfold spill_size_ok. rewrite (capacity_eq bs) by lia. unfold capacity.
  destruct (N.leb_spec 116 bs) as [L|L].
  - assert (Y : 6 <= (bs - 8) / 18) by (apply N.div_le_lower_bound; lia).
    set (c := (bs - 8) / 18) in *.
    rewrite capacity_eq by (unfold bucket_size; lia). unfold capacity, bucket_size.
    replace (2 + 6 + c * (6 + 6 + 6) - 8) with (c * 18) by lia. rewrite N.div_mul by lia. apply N.eqb_refl.
  - assert (Y : (bs - 8) / 18 = 5) by (symmetry; apply (N.div_unique (bs - 8) 18 5 (bs - 8 - 90)); lia).
    rewrite Y. reflexivity.
Qed.

Lemma verify_header buf : run (verify e buf) w =
  run (if verify_choose_normal kh (blen d) (blen key) buf then verify_normal e kh (blen d)
       else verify_fast e kh (blen d) buf) w.
Proof using Hp Hum Hd.
  pose proof (dk_dat _ _ _ _ _ Hd) as D. pose proof (dk_key _ _ _ _ _ Hd) as K.
  destruct (disk_pow e p Hp _ _ _ Hd) as (H1 & _).
  unfold verify.
  rewrite (run_ebind_ok _ _ _ _ _ (run_open _ _ _ D)).
  rewrite (run_ebind_ok _ _ _ _ _ (run_open _ _ _ K)).
  rewrite (run_ebind_ok _ _ _ _ _ (read_dh p Hp w _ D)).
  rewrite (verify_dat_ok p Hp). erewrite run_ebind_ok by reflexivity.
  rewrite (run_ebind_ok _ _ _ _ _ (read_kh e p Hp _ _ w Hd)).
  rewrite (verify_key_ok e p Hp _ H1). erewrite run_ebind_ok by reflexivity.
  rewrite (verify_dat_key_ok e p Hp _ H1). erewrite run_ebind_ok by reflexivity.
  rewrite (run_ebind_ok _ _ _ _ _ (run_size _ _ _ K)).
  rewrite (run_ebind_ok _ _ _ _ _ (run_size _ _ _ D)). reflexivity.
Qed.

Lemma not_normal buf : verify_choose_normal kh (blen d) (blen key) buf = false -> 2 * bs + 8 <= buf.
Proof using.
  unfold verify_choose_normal, verify_chunk. change (kh_block_size kh) with bs. cbv zeta.
  destruct (N.leb_spec (2 * bs + 8) buf); auto. rewrite N.eqb_refl. discriminate.
Qed.

Lemma verify_disk buf :
  (exists v, run (verify e buf) w = (w, Ok v) /\ reports v (true_stats bs rs lens)) \/
  (run (verify e buf) w = (w, Er invalid_spill_size) /\ bs < 116 /\ 2 * bs + 8 <= buf /\ 0 < count is_spill rs).
Proof using Hp Hum Hd Hf.
  rewrite verify_header. destruct (verify_choose_normal kh (blen d) (blen key) buf) eqn:Ec.
  - left. eexists. split; [apply verify_normal_ok; auto|apply vtrue_reports].
  - apply not_normal in Ec. rewrite is_spill_srec. pose proof spill_size_116 as S.
    destruct (N.leb_spec 116 bs) as [L|L].
    + left. eexists. split; [apply verify_fast_ok; auto|apply vtrue_reports].
    + destruct (N.eq_dec (count is_srec recs) 0) as [Z|Z].
      * left. eexists. split; [apply verify_fast_ok; auto|apply vtrue_reports].
      * right. splits; auto; [apply verify_fast_fails; auto|lia].
Qed.
End Db.

(** A database reached by a history of calls. *)
Lemma lived_verify e a l w s buf : iter_ok e -> good_args a -> Forall (valid_op (ca_key_size a)) l ->
  lived e a l w s ->
  exists dat key rs lens, w_dat w = Some dat /\ w_key w = Some key /\
    database (ca_key_size a) (ca_block_size a) dat key rs lens /\ values rs = written sempty [] [] l /\
    ((exists v, run (verify e buf) w = (w, Ok v) /\ reports v (true_stats (ca_block_size a) rs lens)) \/
     (run (verify e buf) w = (w, Er invalid_spill_size) /\ ca_block_size a < 116 /\
      2 * ca_block_size a + 8 <= buf /\ 0 < count is_spill rs)).
Proof.
  intros Hit Ha Hv Hl. destruct (good_args_ok a Ha) as (Hp & _).
  assert (Hum : unmixed (dbp_of a)) by reflexivity.
  destruct (lived_written e a l w s Ha Hit Hv Hl) as (recs & T & i & b & Hi & _ & Hk).
  pose proof (si_disk _ _ _ _ _ _ Hi) as Hd. pose proof (sinv_fit e (dbp_of a) recs T s w Hp (young_of a) Hi) as Hf.
  do 4 eexists. split; [exact (dk_dat _ _ _ _ _ Hd)|]. split; [exact (dk_key _ _ _ _ _ Hd)|].
  split; [exact (database_of e (dbp_of a) recs T w Hp Hum Hd)|]. split; [rewrite values_kvs; exact Hk|].
  exact (verify_disk e (dbp_of a) recs T w Hp Hum Hd Hf buf).
Qed.

Lemma lived_verify_big e a l w s buf : iter_ok e -> good_args a -> Forall (valid_op (ca_key_size a)) l ->
  lived e a l w s -> 116 <= ca_block_size a ->
  exists dat key rs lens v, w_dat w = Some dat /\ w_key w = Some key /\
    database (ca_key_size a) (ca_block_size a) dat key rs lens /\ values rs = written sempty [] [] l /\
    run (verify e buf) w = (w, Ok v) /\ reports v (true_stats (ca_block_size a) rs lens).
Proof.
  intros Hit Ha Hv Hl Hb.
  destruct (lived_verify e a l w s buf Hit Ha Hv Hl) as (dat & key & rs & lens & H1 & H2 & H3 & H4 & [(v & H5)|(_ & H5 & _)]); [|lia].
  exists dat, key, rs, lens, v. auto.
Qed.

Lemma lived_verify_both e a l w s buf : iter_ok e -> good_args a -> Forall (valid_op (ca_key_size a)) l ->
  lived e a l w s ->
  let bs := ca_block_size a in
  exists dat key rs lens kh, w_dat w = Some dat /\ w_key w = Some key /\
    database (ca_key_size a) bs dat key rs lens /\ values rs = written sempty [] [] l /\
    run read_key_header w = (w, Ok kh) /\
    let st := true_stats bs rs lens in
    (exists v, run (verify_normal e kh (blen dat)) w = (w, Ok v) /\ vi_algorithm v = 0 /\
       reports v st /\ vi_spill_bytes_tot v = s_spill_bytes st) /\
    (2 * bs + 8 <= buf -> 116 <= bs \/ s_spills st = 0 ->
     exists v, run (verify_fast e kh (blen dat) buf) w = (w, Ok v) /\ vi_algorithm v = 1 /\ reports v st /\
       (blen lens * (bs + 8) + bs <= buf -> 0 < s_spills_used st -> vi_spill_bytes_tot v = s_spill_bytes st)) /\
    (2 * bs + 8 <= buf -> bs < 116 -> 0 < s_spills st ->
     run (verify_fast e kh (blen dat) buf) w = (w, Er invalid_spill_size)).
Proof.
  intros Hit Ha Hv Hl bs. destruct (good_args_ok a Ha) as (Hp & _).
  assert (Hum : unmixed (dbp_of a)) by reflexivity.
  destruct (lived_written e a l w s Ha Hit Hv Hl) as (recs & T & i & b & Hi & _ & Hk).
  pose proof (si_disk _ _ _ _ _ _ Hi) as Hd. pose proof (sinv_fit e (dbp_of a) recs T s w Hp (young_of a) Hi) as Hf. set (p := dbp_of a) in *.
  do 5 eexists. split; [exact (dk_dat _ _ _ _ _ Hd)|]. split; [exact (dk_key _ _ _ _ _ Hd)|].
  split; [exact (database_of e p recs T w Hp Hum Hd)|]. split; [rewrite values_kvs; exact Hk|].
  split; [exact (read_kh e p Hp _ _ w Hd)|].
  pose proof (spill_size_116 p Hp) as S. change (db_block_size p) with bs in S.
  intros st. rewrite lens_blen.
  assert (E1 : s_spills st = count is_srec recs) by (apply is_spill_srec).
  assert (E2 : s_spill_bytes st = count is_srec recs * (8 + (8 + 18 * capacity bs))).
  { unfold st, true_stats. cbn [s_spill_bytes]. rewrite is_spill_srec. reflexivity. }
  rewrite E1, E2. split; [|split].
  - eexists. split; [apply verify_normal_ok; auto|]. split; [reflexivity|]. split; [apply vtrue_reports; auto|].
    cbn [vtrue vi_spill_bytes_tot]. rewrite (size_cap p Hp). reflexivity.
  - intros Hb Hs. eexists. split; [apply verify_fast_ok; auto|].
    + rewrite S. destruct Hs as [Hs|Hs]; [left; apply N.leb_le; exact Hs|right; exact Hs].
    + split; [reflexivity|]. split; [apply vtrue_reports; auto|]. intros H1 H2.
      cbn [vtrue vi_spill_bytes_tot]. rewrite (tmp_size_whole e p recs T w Hp Hum Hd buf Hb H1 H2), (size_cap p Hp). reflexivity.
  - intros Hb Hs Hc. apply verify_fast_fails; auto; [|lia]. rewrite S. apply N.leb_gt. exact Hs.
Qed.
