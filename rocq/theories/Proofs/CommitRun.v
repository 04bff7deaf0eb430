(** The phases of a commit. *)
From Verif Require Import Model.Bytes Model.Err Model.Field Model.Format Model.IO
  Model.BulkIO Model.Bucket Model.Pool Model.Store
  Proofs.BytesFacts Proofs.FieldFacts Proofs.IOFacts Proofs.BucketFacts Proofs.BulkFacts
  Proofs.HashFacts Proofs.Table Proofs.Lookup Proofs.SplitFacts Proofs.CommitFacts
  Proofs.CommitInv.


Lemma spills_only_datas kh news o : spills_only kh news -> datas (place o news) = [].
Proof.
  intros Hs. revert o. induction Hs as [|r l Hr Hl IH]; intros o; simpl; auto.
  destruct Hr as (_ & es & sp & ->). auto.
Qed.

Lemma run_commit_log_records c : forall w bw d,
  bw_inv FLog w bw d ->
  exists x bw', run (commit_log_records c bw) w = (wset w FLog (Some x), Ok bw') /\
    bw_inv FLog (wset w FLog (Some x)) bw' (d ++ flat_map log_record c).
Proof.
  induction c as [|nb c IH]; intros w bw d Hi; cbn [commit_log_records].
  - pose proof Hi as [_ _ (y & Hy & _)]. exists y, bw. rewrite <- Hy, wset_same. cbn [flat_map].
    rewrite app_nil_r. auto.
  - destruct (run_bw_put _ _ _ _ (log_record nb) Hi) as (x & bw' & Hr & Hi' & _).
    destruct (IH _ _ _ Hi') as (y & bw2 & Hr2 & Hi2).
    exists y, bw2. rewrite wset_wset in *. split.
    + rewrite (run_ebind_ok _ _ _ _ _ Hr). exact Hr2.
    + cbn [flat_map]. rewrite app_assoc. auto.
Qed.

Lemma run_commit_log e c0 w d :
  wget w FLog = Some d ->
  run (commit_log e c0) w = (wset w FLog (Some (d ++ flat_map log_record (e_iter e c0))), Ok tt).
Proof.
  intros Hd. unfold commit_log. rewrite (run_ebind_ok _ _ _ _ _ (run_size _ _ _ Hd)). cbv zeta.
  destruct (run_commit_log_records (e_iter e c0) w (bw_make FLog true (blen d) logWriteSize) d) as (x & bw & Hr & Hi).
  { apply bw_make_inv; auto. }
  rewrite (run_ebind_ok _ _ _ _ _ Hr). destruct (run_bw_flush _ _ _ _ Hi) as (bw' & Hf & _).
  rewrite wset_wset in Hf. rewrite (run_ebind_ok _ _ _ _ _ Hf).
  eapply run_sync. apply wget_wset_same.
Qed.

Lemma tinv_perm bs P T M E E' : Permutation E E' -> tinv bs P T M E -> tinv bs P T M E'.
Proof.
  intros Hp [A B]. constructor; auto. intros n Hn. eapply bucket_inv_perm; [|apply B; auto].
  apply filter_perm. auto.
Qed.

(** The data writer never holds more than this. *)
Definition datbuf (n : N) : Prop := n <= 4295098374.

Lemma datbuf_ok : buf_ok datbuf.
Proof. split; unfold datbuf; intros; lia. Qed.

Section Commit.
Variables (e : env) (kh : key_header) (thresh : N).
Let H := e_hasher e.
Let salt := kh_salt kh.
Let ks := kh_key_size kh.
Let bs := kh_block_size kh.
Hypothesis Hcap : 1 <= bucket_capacity bs.
Hypothesis Hbs : bs <= 65535.
Hypothesis Hkc : kh_capacity kh = bucket_capacity bs.
Hypothesis Hth : 65536 <= thresh.
Hypothesis Hit : iter_ok e.
Variables (hdr kb : bytes).
Hypothesis Hhdr : blen hdr = dat_hdr_size.
Hypothesis Hkb : blen kb = bs.

Definition ents (recs : list drec) : list entry := map (entry_of H salt) (datas (placed recs)).

Lemma cinv_bent_ok P T M E : tinv bs P T M E -> forall n, n < blen T -> bent_ok kh (nthN T n b0).
Proof. intros [_ Hb] n Hn. eapply inv_bent_ok; eauto. Qed.

Lemma padded_blk p b : brep kh p b -> bk_padded (bk_of_blob p) = kblock bs b.
Proof. intros R. unfold kblock. eapply padded_rep; eauto. Qed.

Lemma kfile_concat T : kfile bs kb T = kb ++ concat (map (kblock bs) T).
Proof. unfold kfile. rewrite flat_map_concat_map. auto. Qed.

Lemma T_blocks T : (forall n, n < blen T -> bent_ok kh (nthN T n b0)) ->
  Forall (fun x => blen x = bs) (map (kblock bs) T).
Proof.
  intros HT. pose proof (T_fits kh Hcap T HT) as Hf.
  rewrite Forall_forall in *. intros x Hx. apply in_map_iff in Hx as (b & <- & Hin).
  apply blen_enc_block, Hf, Hin.
Qed.

Lemma nthN_map {A B} (f : A -> B) l n d : nthN (map f l) n (f d) = f (nthN l n d).
Proof. unfold nthN. apply map_nth. Qed.

Lemma blen_map {A B} (f : A -> B) l : blen (map f l) = blen l.
Proof. unfold blen. rewrite map_length. auto. Qed.

Lemma commit_key_ok T0 T c0 c1 w :
  (forall n, n < blen T0 -> bent_ok kh (nthN T0 n b0)) ->
  (forall n, n < blen T -> bent_ok kh (nthN T n b0)) ->
  cinv kh T0 T c0 c1 -> wget w FKey = Some (kfile bs kb T0) ->
  run (commit_key bs (e_iter e c1)) w = (wset w FKey (Some (kfile bs kb T)), Ok tt).
Proof.
  intros HT0 HT Hc Hw. set (c := e_iter e c1).
  assert (Hp : Permutation c1 c) by apply Hit.
  assert (Hnd : NoDup (map fst c)).
  { eapply Permutation_NoDup; [apply Permutation_map; eauto|apply Hc]. }
  assert (Hcf : forall n, cache_find c n = cache_find c1 n).
  { intros n. apply cache_find_perm; auto. apply Hc. }
  assert (Hin : forall n p, In (n, p) c -> n < blen T /\ brep kh p (nthN T n b0)).
  { intros n p Hin. apply (ci_c1 _ _ _ _ _ Hc). rewrite <- Hcf. apply cache_In_find; auto. }
  rewrite kfile_concat in Hw.
  rewrite (commit_key_run bs kb c (map (kblock bs) T0) w); auto using T_blocks.
  - do 3 f_equal. rewrite kfile_concat. f_equal. f_equal.
    destruct (gsets_len bs c (map (kblock bs) T0)) as (G1 & G2 & G3).
    assert (Hl : blen (gsets bs (map (kblock bs) T0) c) = blen (map (kblock bs) T)).
    { rewrite !blen_map in *. apply N.le_antisymm.
      - apply G3; [apply Hc|]. intros n p X. apply Hin in X. tauto.
      - destruct (N.eq_dec (blen T) 0) as [E|E]; [rewrite E; apply N.le_0_l|].
        assert (X : blen T - 1 < blen T) by lia.
        destruct (cache_find c1 (blen T - 1)) as [p|] eqn:F.
        + rewrite <- Hcf in F. apply cache_find_In, G2 in F. lia.
        + apply (ci_n _ _ _ _ _ Hc) in F; auto. lia. }
    apply (nthN_ext _ _ (kblock bs b0)); auto.
    intros i Hi. rewrite gsets_nth by auto. rewrite !nthN_map, blen_map, Hcf.
    rewrite Hl, blen_map in Hi.
    destruct (cache_find c1 i) as [p|] eqn:F.
    + apply padded_blk. apply (ci_c1 _ _ _ _ _ Hc); auto.
    + destruct (ci_n _ _ _ _ _ Hc i Hi F) as [Hi0 ->].
      replace (i <? blen T0) with true by lia. auto.
  - intros n p X. apply Hin in X as [Hn R]. rewrite (padded_blk _ _ R).
    pose proof (T_fits kh Hcap T HT) as Hf. apply blen_enc_block.
    rewrite Forall_forall in Hf. apply Hf, nthN_In; auto.
Qed.

Lemma pelem_entries lo o :
  (forall x n, In (x, n) lo -> pe_hash x = hash H salt (pe_key x)) ->
  map (fun xo => (snd xo, rec_of (fst xo))) lo = place o (map rec_of (map fst lo)) ->
  map pelem_entry lo = map (entry_of H salt) (datas (place o (map rec_of (map fst lo)))).
Proof.
  intros Hh <-. induction lo as [|[x n] lo IH]; simpl; auto. f_equal.
  - unfold pelem_entry. simpl. rewrite (Hh x n) by (simpl; auto). auto.
  - apply IH. intros; eapply Hh; right; eauto.
Qed.

Definition batch_ok (l : list pelem) : Prop :=
  Forall (fun x => pe_hash x = hash H salt (pe_key x) /\ blen (pe_key x) = ks /\
    0 < blen (pe_data x) /\ blen (pe_data x) < 4294967296) l.

Lemma commit_data_ok recs T0 M frac l w :
  ks <= 65535 ->
  tinv bs (placed recs) T0 M (ents recs) -> frac < thresh -> batch_ok l ->
  wget w FDat = Some (hdr ++ enc_recs recs) -> wget w FKey = Some (kfile bs kb T0) ->
  exists news w' r,
    run (commit_data e kh thresh frac (blen T0) M l) w = (w', r) /\ spills_only kh news /\
    blen news <= blen l * (blen (ents recs) + blen l) /\
    let recs' := recs ++ map rec_of l ++ news in
    match r with
    | Er er => er = EAssert /\ too_big datbuf w' recs'
    | Ok st => exists T, w' = wset w FDat (Some (hdr ++ enc_recs recs')) /\
        tinv bs (placed recs') T (cs_modulus st) (ents recs') /\
        cs_buckets st = blen T /\ cinv kh T0 T (cs_c0 st) (cs_c1 st) /\ cs_frac st < thresh /\
        cs_frac st + thresh * blen T = frac + 65536 * blen l + thresh * blen T0 /\
        Forall entry_ok (map (entry_of H salt) (datas (place (dat_hdr_size + blen (enc_recs recs)) (map rec_of l)))) /\
        low (dat_hdr_size + blen (enc_recs recs)) recs'
    end.
Proof.
  intros Hks Ht Hf Hb Hd Hk. unfold commit_data.
  rewrite (run_ebind_ok _ _ _ _ _ (run_size _ _ _ Hd)). cbv zeta.
  set (bw := bw_make FDat true (blen (hdr ++ enc_recs recs)) dataWriteSize).
  pose (base := dat_hdr_size + blen (enc_recs recs)).
  assert (Hw : wst hdr w datbuf base recs w bw).
  { split; [|apply low_init; apply N.le_refl]. split; [|split; [apply bw_make_inv; auto|split; unfold datbuf, bw, bw_make, dataWriteSize; cbn [bw_buf bw_cap]; rewrite ?blen_nil; lia]].
    exists (hdr ++ enc_recs recs). rewrite <- (wset_same w FDat) at 1. rewrite Hd. reflexivity. }
  destruct (commit_records_ok hdr w datbuf base datbuf_ok Hhdr l recs w bw Hw) as (w1 & lo & bw1 & Hr1 & Hw1 & Hm & Hp).
  { unfold batch_ok in Hb. eapply Forall_impl; [|exact Hb]. intros x (_ & X1 & _ & X2).
    unfold datbuf. rewrite X1. clear - Hks X2. lia. }
  rewrite (run_ebind_ok _ _ _ _ _ Hr1).
  assert (HT0 : forall n, n < blen T0 -> bent_ok kh (nthN T0 n b0)) by (eapply cinv_bent_ok; eauto).
  set (st0 := CState [] [] (blen T0) M frac bw1).
  assert (Hc0 : cst kh thresh hdr w T0 datbuf base (recs ++ map rec_of l) T0 (ents recs) st0 w1).
  { constructor; simpl; auto.
    - eapply tinv_incl; [apply placed_incl|]. auto.
    - apply cinv_init. }
  assert (Hlo : blen lo = blen l) by (rewrite <- Hm; symmetry; apply blen_map).
  destruct (commit_inserts_ok e kh thresh Hcap Hbs Hkc Hth hdr w kb T0 datbuf base datbuf_ok Hhdr Hkb Hk HT0 lo _ _ _ _ _ Hc0)
    as (news & w2 & r & Hr2 & Hs & Hn & Hpost).
  { rewrite Forall_forall. intros [x o] Hin. simpl.
    unfold batch_ok in Hb. rewrite Forall_forall in Hb.
    assert (Hx : In x l) by (rewrite <- Hm; apply (in_map fst) in Hin; exact Hin).
    specialize (Hb x Hx) as (B1 & B2 & B3 & B4). splits; auto.
    - rewrite B1. apply hash_lt.
    - assert (X : In (o, rec_of x) (place (dat_hdr_size + blen (enc_recs recs)) (map rec_of l))).
      { rewrite <- Hp. apply in_map_iff. exists (x, o). auto. }
      apply place_In in X as (X1 & X2 & _). rewrite enc_recs_app, blen_app. lia. }
  rewrite Hlo in Hn.
  destruct r as [st|er].
  - destruct Hpost as (T & [C1 C2 C3 C4 C5] & Hfr & Hok). rewrite <- app_assoc in C1, C2.
    destruct (wst_flush hdr w datbuf base datbuf_ok _ _ _ C1) as (w3 & bw3 & Hr3 & [[(d & Hd3) _] Hlow] & Hg).
    exists news, w3. eexists. split.
    { rewrite (run_ebind_ok _ _ _ _ _ Hr2). rewrite (run_ebind_ok _ _ _ _ _ Hr3). reflexivity. }
    splits; auto. exists T. cbn [cs_c0 cs_c1 cs_buckets cs_modulus cs_frac].
    assert (Hent : map pelem_entry lo = map (entry_of H salt)
        (datas (place (dat_hdr_size + blen (enc_recs recs)) (map rec_of l)))).
    { rewrite <- Hm. apply pelem_entries; [|rewrite Hm; auto].
      intros x n Hin. unfold batch_ok in Hb. rewrite Forall_forall in Hb. apply Hb.
      rewrite <- Hm. apply (in_map fst) in Hin. exact Hin. }
    splits; auto.
    + rewrite Hd3 in *. rewrite wget_wset_same in Hg. congruence.
    + eapply tinv_perm; [|exact C2]. unfold ents at 2. rewrite placed_app, datas_app, map_app.
      rewrite place_app, datas_app, (spills_only_datas _ _ _ Hs), app_nil_r.
      rewrite Hent. unfold ents. rewrite Permutation_app_comm. apply Permutation_app_head.
      symmetry. apply Permutation_rev.
    + rewrite Hfr, Hlo. auto.
    + rewrite <- Hent. auto.
  - destruct Hpost as [-> Hbig]. rewrite <- app_assoc in Hbig.
    exists news, w2, (Er EAssert). splits; auto. rewrite (run_ebind_er _ _ _ _ _ Hr2). auto.
Qed.

Definition log0 (recs : list drec) (T0 : list bent) : bytes :=
  enc_log_header (commit_log_header e kh ((blen T0 + 1) * bs) (dat_hdr_size + blen (enc_recs recs))).

Lemma commit_begin_ok recs T0 w :
  (forall n, n < blen T0 -> bent_ok kh (nthN T0 n b0)) ->
  wget w FDat = Some (hdr ++ enc_recs recs) -> wget w FKey = Some (kfile bs kb T0) ->
  wget w FLog = Some [] ->
  run (commit_begin e kh) w = (wset w FLog (Some (log0 recs T0)), Ok tt).
Proof.
  intros HT Hd Hk Hl. unfold commit_begin.
  rewrite (run_ebind_ok _ _ _ _ _ (run_size _ _ _ Hk)).
  rewrite (run_ebind_ok _ _ _ _ _ (run_size _ _ _ Hd)).
  rewrite (blen_kfile bs kb T0 Hkb (T_fits kh Hcap T0 HT)). rewrite blen_app, Hhdr.
  erewrite run_ebind_ok by (apply run_append; eauto).
  erewrite run_sync by apply wget_wset_same. reflexivity.
Qed.

Lemma commit_end_ok w d k l :
  wget w FDat = Some d -> wget w FKey = Some k -> wget w FLog = Some l ->
  run commit_end w = (wset w FLog (Some []), Ok tt).
Proof.
  intros Hd Hk Hl. unfold commit_end.
  erewrite run_ebind_ok by (eapply run_sync; eauto).
  erewrite run_ebind_ok by (eapply run_sync; eauto).
  erewrite run_ebind_ok by (eapply run_trunc; eauto).
  erewrite run_sync by apply wget_wset_same.
  unfold btrunc. rewrite btake_0. simpl zeros. rewrite N.sub_0_l. reflexivity.
Qed.
End Commit.
