(** Looking up keys while the files are being changed. *)
From Verif Require Import Model.Bytes Model.Err Model.Field Model.Format Model.IO Model.BulkIO
  Model.Bucket Model.Pool Model.Recover Model.Create Model.Store Spec SpecLin Model.History Model.Crash
  Model.Concurrent
  Proofs.BytesFacts Proofs.IOFacts Proofs.PoolFacts Proofs.BucketFacts Proofs.BulkFacts Proofs.HashFacts
  Proofs.Table Proofs.Lookup Proofs.CommitFacts Proofs.CommitInv Proofs.CommitRun Proofs.StoreInv
  Proofs.SafeFacts Proofs.CommitOps Proofs.CrashFacts Proofs.ConcFacts.
Opaque loop.

Lemma same_refl kr w : same kr w w.
Proof. intros f off len d _ H. exact H. Qed.
Lemma same_trans kr w w' w2 : same kr w w' -> same kr w' w2 -> same kr w w2.
Proof. intros A B f off len d Ha H. apply B; auto. Qed.

Lemma ao_any P {A} (R : res A -> Prop) (q : prog (res A)) : allops P R q -> allops P anyres q.
Proof. intros H. eapply ao_weaken; [exact H|auto|intros; exact I]. Qed.

Section Look.
Variables (e : env) (p : dbp).
Hypothesis Hp : dbp_ok p.
Notation bs := (db_block_size p).
Notation ks := (db_key_size p).

(** The files that readers are to see. *)
Definition vw (recs : list drec) (T : list bent) : world :=
  World (Some (db_hdr p ++ enc_recs recs)) (Some (kfile bs (db_kb e p) T)) None.

Definition fetch_res (o : option bytes) : res bytes :=
  match o with Some v => Ok v | None => Er key_not_found end.
Definition is_some {A} (o : option A) : bool := match o with Some _ => true | None => false end.

Section Found.
Variables (recs : list drec) (T : list bent) (k : bytes) (B : N).
Hypothesis Hd : disk e p recs T (vw recs T).
Hypothesis Hk : blen k = ks.
Let kh := db_kh e p B.
Let h := hash (e_hasher e) (db_salt p) k.
Let n := bucket_index h (blen T) (ceil_pow2 (blen T)).
Let bn := nthN T n b0.

Lemma bucket_lt : n < blen T.
Proof. destruct (disk_pow e p Hp _ _ _ Hd) as (H1 & H2 & Hpo & Ht). apply bucket_index_lt; auto. Qed.

Lemma located : exists ces,
    ents_ok (fst bn) /\ chain bs (placed recs) (snd bn) ces /\
    Forall (linked (e_hasher e) (db_salt p) ks (placed recs)) (fst bn ++ ces) /\
    forall o v, In (o, DRec k v) (placed recs) ->
      exists en, In en (fst bn ++ ces) /\ en_off en = o /\ en_hash en = h.
Proof.
  destruct (disk_pow e p Hp _ _ _ Hd) as (H1 & H2 & Hpo & Ht).
  destruct (ti_b _ _ _ _ _ Ht n bucket_lt) as [O C _ (ces & Hch & Hperm)].
  exists ces. splits; auto.
  - rewrite Forall_forall. intros en Hin.
    eapply Permutation_in in Hin; [|exact Hperm]. apply filter_In in Hin as [Hin _].
    eapply dents_linked; eauto. apply Hd.
  - intros o v Hin. exists (Entry o (blen v) h). splits; auto.
    eapply Permutation_in; [symmetry; exact Hperm|]. apply filter_In. split.
    + unfold dents. apply in_map_iff. exists (o, k, v). split; auto. apply datas_In; auto.
    + unfold mine. simpl. apply N.eqb_refl.
Qed.

Lemma kfind_placed v : kfind (kvs recs) k = Some v <-> exists o, In (o, DRec k v) (placed recs).
Proof. rewrite kfind_In by apply Hd. apply kvs_In. Qed.

Notation P := (placed recs).

Lemma fetch_bucket_run b : bk_rep bs b (fst bn) (snd bn) ->
  run (fetch_bucket e kh h k b) (vw recs T) = (vw recs T, fetch_res (kfind (kvs recs) k)).
Proof.
  intros R. destruct located as (ces & O & Hch & Hli & Hall).
  destruct (disk_holds e p _ _ _ Hd) as [Hho Hfu].
  destruct (fetch_bucket_ok e kh (p_cap p Hp) (p_bs p Hp) (vw recs T) _ P (dk_dat _ _ _ _ _ Hd) Hho Hfu
    b _ _ ces h k R O Hch Hli Hk) as (r & Hrun & Hpost).
  rewrite Hrun. f_equal. destruct r as [v|er].
  - destruct Hpost as (en & _ & Hin). assert (X : kfind (kvs recs) k = Some v) by (apply kfind_placed; eauto).
    rewrite X. auto.
  - destruct Hpost as [-> Hno]. destruct (kfind (kvs recs) k) as [v|] eqn:E; auto.
    exfalso. apply kfind_placed in E as (o & Ho). destruct (Hall o v Ho) as (en & Hen & <- & Hh). eapply Hno; eauto.
Qed.

Lemma exists_bucket_run b : bk_rep bs b (fst bn) (snd bn) ->
  run (exists_bucket e kh h k b) (vw recs T) = (vw recs T, Ok (is_some (kfind (kvs recs) k))).
Proof.
  intros R. destruct located as (ces & O & Hch & Hli & Hall).
  destruct (disk_holds e p _ _ _ Hd) as [Hho Hfu].
  destruct (exists_bucket_ok e kh (p_cap p Hp) (p_bs p Hp) (vw recs T) _ P (dk_dat _ _ _ _ _ Hd) Hho Hfu
    b _ _ ces h k R O Hch Hli Hk) as (r & Hrun & Hpost).
  rewrite Hrun. do 2 f_equal. destruct r.
  - destruct Hpost as (en & v & _ & Hin). assert (X : kfind (kvs recs) k = Some v) by (apply kfind_placed; eauto).
    rewrite X. auto.
  - destruct (kfind (kvs recs) k) as [v|] eqn:E; auto.
    exfalso. apply kfind_placed in E as (o & Ho). destruct (Hall o v Ho) as (en & Hen & <- & Hh). eapply Hpost; eauto.
Qed.

Lemma fetch_bucket_reads b : bk_rep bs b (fst bn) (snd bn) ->
  reads nokey (vw recs T) (fetch_bucket e kh h k b) (fetch_res (kfind (kvs recs) k)).
Proof.
  intros R. eapply (reads_run nokey); [|apply strict_fetch_bucket|apply fetch_bucket_run; auto|].
  - eapply ao_any; apply rd_fetch_bucket.
  - intros er. destruct (kfind (kvs recs) k); simpl; congruence.
Qed.

Lemma cap_fits : bucket_size (bucket_capacity bs) <= bs.
Proof. pose proof (p_cap p Hp). destruct (cap_bound bs); lia. Qed.

Lemma block_read : exists b, run (bk_read (fresh e bs) FKey ((n + 1) * bs)) (vw recs T) = (vw recs T, Ok b) /\
  bk_rep bs b (fst bn) (snd bn).
Proof.
  apply (read_key_bucket e kh (db_thresh p) (p_cap p Hp) (p_bs p Hp) eq_refl (p_thresh p) (db_hdr p) (db_kb e p) T
    (p_hdr p) (p_kb e p Hp) (disk_bent e p _ _ _ Hd B) T _ n (dk_key _ _ _ _ _ Hd) (disk_bent e p _ _ _ Hd B)
    bucket_lt).
Qed.

Lemma rd_block {A} (f : bucket -> prog (res A)) :
  (forall b, allops (rdop (blk bs n)) (okres anyres) (f b)) ->
  allops (rdop (blk bs n)) anyres (b <- bk_read (fresh e bs) FKey ((n + 1) * bs) ;; f b).
Proof.
  intros Hf. eapply ao_any.
  apply (ao_ebind _ anyres); [|intros; apply Hf].
  apply rd_bk_read. right. split; auto. unfold blk. rewrite blen_fresh. pose proof cap_fits. lia.
Qed.

Lemma fetch_key_reads :
  reads (blk bs n) (vw recs T)
    (b <- bk_read (fresh e bs) FKey ((n + 1) * bs) ;; fetch_bucket e kh h k b)
    (fetch_res (kfind (kvs recs) k)).
Proof.
  destruct block_read as (b & Hr & R).
  eapply (reads_run (blk bs n)).
  - apply rd_block. intros. apply rd_fetch_bucket.
  - apply strict_ebind; [apply strict_bk_read|intros; apply strict_fetch_bucket].
  - rewrite (run_ebind_ok _ _ _ _ _ Hr). apply fetch_bucket_run; auto.
  - intros er. destruct (kfind (kvs recs) k); simpl; congruence.
Qed.

Lemma exists_key_reads :
  reads (blk bs n) (vw recs T)
    (b <- bk_read (fresh e bs) FKey ((n + 1) * bs) ;; exists_bucket e kh h k b)
    (Ok (is_some (kfind (kvs recs) k))).
Proof.
  destruct block_read as (b & Hr & R).
  eapply (reads_run (blk bs n)).
  - apply rd_block. intros. apply rd_exists_bucket.
  - apply strict_ebind; [apply strict_bk_read|intros; apply strict_exists_bucket].
  - rewrite (run_ebind_ok _ _ _ _ _ Hr). apply exists_bucket_run; auto.
  - intros er. discriminate.
Qed.

(** exists(): the first bucket, then the others. *)
Lemma exists_parts_reads b : bk_rep bs b (fst bn) (snd bn) ->
  exists r, reads nokey (vw recs T)
      (exists_scan (N.to_nat (bk_size b - bk_lower_bound b h)) ks h k b (bk_lower_bound b h)) (Ok r) /\
    if r then is_some (kfind (kvs recs) k) = true
    else reads nokey (vw recs T) (exists_rest e kh h k b) (Ok (is_some (kfind (kvs recs) k))).
Proof.
  intros R. destruct located as (ces & O & Hch & Hli & Hall).
  destruct (disk_holds e p _ _ _ Hd) as [Hho Hfu].
  apply Forall_app in Hli as [Hl1 Hl2].
  destruct (exists_scan_ok e kh (p_cap p Hp) (p_bs p Hp) (vw recs T) _ P (dk_dat _ _ _ _ _ Hd) Hho Hfu
    b _ _ h k (N.to_nat (bk_size b - bk_lower_bound b h)) (bk_lower_bound b h) R (proj1 O) Hl1 Hk) as (r & Hrun & Hpost).
  { rewrite (lower_bound_rep _ _ _ _ _ R (proj1 O)). lia. }
  { rewrite (lower_bound_rep _ _ _ _ _ R (proj1 O)). apply lb_le. }
  { rewrite (rep_size _ _ _ _ R). auto. }
  rewrite (lower_bound_rep _ _ _ _ _ R (proj1 O)) in Hpost.
  exists r. split.
  { eapply (reads_run nokey); [|apply strict_exists_scan|exact Hrun|discriminate].
    eapply ao_any; apply rd_exists_scan. }
  destruct r.
  - destruct Hpost as (en & v & _ & Hin). assert (X : kfind (kvs recs) k = Some v) by (apply kfind_placed; eauto).
    rewrite X. auto.
  - assert (Hrest : run (exists_rest e kh h k b) (vw recs T) = (vw recs T, Ok (is_some (kfind (kvs recs) k)))).
    { unfold exists_rest. rewrite (rep_spill _ _ _ _ R).
      remember (snd bn) as sp eqn:Esp.
      destruct Hch as [|sp es2 sp' ces H8 Hsp Hin Hlen Hok Hlt Hch].
      - simpl. unfold pret. do 2 f_equal. destruct (kfind (kvs recs) k) as [v|] eqn:E; auto.
        exfalso. apply kfind_placed in E as (o & Ho). destruct (Hall o v Ho) as (en & Hen & <- & Hh).
        rewrite app_nil_r in Hen. apply (Hpost en v); auto. apply (bdrop_lb_In kh (p_cap p Hp) (p_bs p Hp)); auto. apply O.
      - replace (sp =? 0) with false by lia. cbn [kh db_kh kh_block_size].
        destruct (read_spill bs e _ P (vw recs T) sp es2 sp' (dk_dat _ _ _ _ _ Hd) Hho Hin H8 Hlen Hok) as (b2 & Hb2 & R2);
          [lia|apply (p_cap p Hp)|apply (p_bs p Hp)|].
        rewrite (run_ebind_ok _ _ _ _ _ Hb2).
        destruct (exists_bucket_ok e kh (p_cap p Hp) (p_bs p Hp) (vw recs T) _ P (dk_dat _ _ _ _ _ Hd) Hho Hfu
          b2 _ _ ces h k R2 Hok Hch Hl2 Hk) as (r & Hrun2 & Hpost2).
        fold kh. rewrite Hrun2. do 2 f_equal. destruct r.
        + destruct Hpost2 as (en & v & _ & Hin2). assert (X : kfind (kvs recs) k = Some v) by (apply kfind_placed; eauto).
          rewrite X. auto.
        + destruct (kfind (kvs recs) k) as [v|] eqn:E; auto.
          exfalso. apply kfind_placed in E as (o & Ho). destruct (Hall o v Ho) as (en & Hen & <- & Hh).
          apply in_app_iff in Hen as [Hen|Hen]; [|eapply Hpost2; eauto].
          apply (Hpost en v); auto. apply (bdrop_lb_In kh (p_cap p Hp) (p_bs p Hp)); auto. apply O. }
    eapply (reads_run nokey); [|apply strict_exists_rest|exact Hrest|discriminate].
    eapply ao_any; apply rd_exists_rest.
Qed.
End Found.

(** Key files in which a block is the same. *)
Lemma same_kblock recs T T' n w :
  (forall i, i < blen T -> bent_ok (db_kh e p 0) (nthN T i b0)) ->
  (forall i, i < blen T' -> bent_ok (db_kh e p 0) (nthN T' i b0)) ->
  n < blen T -> n < blen T' -> nthN T' n b0 = nthN T n b0 ->
  wget w FDat = Some (db_hdr p ++ enc_recs recs) -> wget w FKey = Some (kfile bs (db_kb e p) T') ->
  same (blk bs n) (vw recs T) w.
Proof.
  intros HT HT' Hn Hn' E Hwd Hwk f off len d [->|[-> [H1 H2]]] (c & Hc & -> & Hl).
  - exists c. splits; auto. rewrite Hwd. exact Hc.
  - injection Hc as <-.
    destruct (kfile_block bs (db_kb e p) T n (p_kb e p Hp) (T_fits (db_kh e p 0) (p_cap p Hp) T HT) Hn) as [B1 B2].
    destruct (kfile_block bs (db_kb e p) T' n (p_kb e p Hp) (T_fits (db_kh e p 0) (p_cap p Hp) T' HT') Hn') as [B3 B4].
    eexists. splits; [exact Hwk| |].
    + fold b0 in B2, B4. rewrite <- E in B2. rewrite <- B4 in B2. apply (f_equal (bsub (off - (n + 1) * bs) len)) in B2.
      rewrite !bsub_bsub in B2 by lia. replace ((n + 1) * bs + (off - (n + 1) * bs)) with off in B2 by lia. exact B2.
    + right. lia.
Qed.
End Look.
