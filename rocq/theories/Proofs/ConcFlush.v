(** New calls, and the transitions of the flush. *)
From Verif Require Import Model.Bytes Model.Err Model.Field Model.Format Model.IO Model.BulkIO
  Model.Bucket Model.Pool Model.Recover Model.Create Model.Store Spec SpecLin Model.History Model.Crash
  Model.Concurrent
  Proofs.BytesFacts Proofs.IOFacts Proofs.PoolFacts Proofs.BucketFacts Proofs.BulkFacts Proofs.HashFacts
  Proofs.Table Proofs.Lookup Proofs.CommitFacts Proofs.CommitInv Proofs.CommitRun Proofs.StoreInv
  Proofs.SplitFacts Proofs.OpenFacts Proofs.HistoryFacts Proofs.SafeFacts Proofs.CommitOps Proofs.CrashFacts
  Proofs.ConcFacts Proofs.ConcLook Proofs.ConcInv.
Opaque loop.

Lemma ao_do_inv {A} P (R : A -> Prop) o c : allops P R (Do o c) -> P o /\ forall r, allops P R (c r).
Proof. intros H. inversion H; subst. auto. Qed.
Lemma strict_do_inv {A} o (c : rsp -> prog (res A)) : strict (Do o c) -> forall r, strict (c r).
Proof. intros H. inversion H; subst. auto. Qed.

Lemma strict_commit_log e c : strict (commit_log e c).
Proof.
  unfold commit_log. st1; [st1|]. st1; [apply strict_commit_log_records|]. st1; [apply strict_bw_flush|st1].
Qed.
Lemma strict_key_end bs c : strict (commit_key bs c ;;; commit_end).
Proof. st1; [apply strict_commit_key|]. unfold commit_end. repeat st1. Qed.

Lemma nodup_r {A} (a b : list A) : NoDup (a ++ b) -> NoDup b.
Proof. induction a as [|x a IH]; simpl; auto. intros H. inversion H; subst; auto. Qed.
Lemma nodup_disj {A} (a b : list A) z : NoDup (a ++ b) -> In z a -> In z b -> False.
Proof.
  induction a as [|y a IH]; simpl; intros Hn; [tauto|]. inversion Hn; subst.
  intros [->|Ha] Hb; [apply H1; apply in_app_iff; auto|eauto].
Qed.

(** What is on the way to the disk: the map when the flush began. *)
Definition frozen (recs : list drec) (s : store) (k : bytes) : option bytes :=
  match pool_find (st_p0 s) k with Some y => Some (pe_data y) | None => kfind (kvs recs) k end.

Lemma frozen_app recs s k :
  NoDup (pkeys (pl_map (st_p0 s)) ++ map fst (kvs recs)) ->
  kfind (kvs recs ++ map (fun y => (pe_key y, pe_data y)) (pl_map (st_p0 s))) k = frozen recs s k.
Proof.
  intros Hnd. unfold frozen. rewrite kfind_app, pool_kfind. unfold pool_find.
  destruct (pmap_find (pl_map (st_p0 s)) k) as [y|] eqn:E; simpl.
  - apply pmap_find_In in E as [E1 E2].
    assert (X : kfind (kvs recs) k = None).
    { apply kfind_none. intros Y. subst k. apply (in_map pe_key) in E1.
      eapply nodup_disj; eauto. }
    rewrite X. auto.
  - destruct (kfind (kvs recs) k); auto.
Qed.

Section Conc.
Variables (e : env) (p : dbp) (fp : err -> world -> Prop).
Hypothesis Hp : dbp_ok p.
Hypothesis Hit : iter_ok e.
Notation bs := (db_block_size p).
Notation ks := (db_key_size p).
Notation xinv := (xinv e p fp).
Notation vw := (vw e p).

Lemma xinv_grow recs T A x m f i b t :
  xinv recs T A x m f i b -> ~ In t A -> xinv recs T (t :: A) x m f i b.
Proof using Type.
  intros [I1 I2 I3 I4 I5 I6 I7 I8 I9 I10 I11] Hn. pose proof (I5 t Hn) as Ht.
  constructor; auto; cbn [sumw]; rewrite ?Ht; auto.
  - constructor; auto.
  - intros u Hu. apply I5. simpl in Hu. tauto.
Qed.

Lemma call_sim recs T A x m f i b t c s :
  xinv recs T A x m f i b -> x_th x t = CIdle -> valid_op (kh_key_size (st_kh (x_s x))) c -> call_state c = Some s ->
  exists A', atomic m f [HCall t c] m (lset f t (LPending c)) /\
    xinv recs T A' (goto x t s) m (lset f t (LPending c)) (i + op_inserts c) (b + op_bytes c).
Proof using Type.
  intros Hi Hx Hv Hs.
  assert (Hv' : valid_op ks c).
  { destruct (sh_kh _ _ _ _ _ _ (xi_sh _ _ _ _ _ _ _ _ _ _ _ Hi)) as (B & HB). rewrite HB in Hv. exact Hv. }
  pose proof (xi_th _ _ _ _ _ _ _ _ _ _ _ Hi t) as Ht. rewrite Hx in Ht. cbn [tok] in Ht.
  assert (HA : exists A', In t A' /\ xinv recs T A' x m f i b).
  { destruct (in_dec N.eq_dec t A) as [Hin|Hin]; [exists A; auto|]. exists (t :: A). split; [left; auto|].
    apply xinv_grow; auto. }
  clear Hi. destruct HA as (A' & Hin & [I1 I2 I3 I4 I5 I6 I7 I8 I9 I10 I11]).
  exists A'. split; [apply at_call; [exact Ht|constructor]|].
  assert (Htok : tok e p (st_kh (x_s x)) (x_w x) (st_c1 (x_s x)) (g_gen (x_g x)) (x_fl x) m (LPending c) s).
  { destruct c; cbn [call_state] in Hs; try discriminate; injection Hs as <-; cbn [tok]; auto. }
  assert (Hw : wm s = 0 /\ wu s = 0 /\ hold s = None /\ pn s = op_inserts c /\ pb s = op_bytes c).
  { destruct c; cbn [call_state] in Hs; try discriminate; injection Hs as <-; splits; auto. }
  destruct Hw as (W1 & W2 & W3 & W4 & W5).
  pose proof (sumw_upd wm A' (x_th x) t s I4 Hin) as Um.
  pose proof (sumw_upd wu A' (x_th x) t s I4 Hin) as Uu.
  pose proof (sumw_upd (wc (g_gen (x_g x))) A' (x_th x) t s I4 Hin) as Uc.
  pose proof (sumw_upd (wp (g_gen (x_g x))) A' (x_th x) t s I4 Hin) as Up.
  pose proof (sumw_upd pn A' (x_th x) t s I4 Hin) as Un.
  pose proof (sumw_upd pb A' (x_th x) t s I4 Hin) as Ub.
  assert (C0 : wc (g_gen (x_g x)) s = 0) by (unfold wc; rewrite W3; auto).
  assert (P0 : wp (g_gen (x_g x)) s = 0) by (unfold wp; rewrite W3; auto).
  rewrite Hx in *. destruct wt_idle as (Z1 & Z2 & Z3 & Z4 & Z5 & Z6).
  rewrite ?Z1, ?Z2, ?Z3, ?Z4, ?Z5, ?Z6, ?W1, ?W2, ?W4, ?W5, ?C0, ?P0 in *.
  unfold goto. constructor; cbn [x_w x_s x_m x_u x_g x_th x_fl]; auto.
  - intros u. destruct (N.eq_dec u t) as [->|Hu].
    + rewrite tset_same, lset_same. auto.
    + rewrite tset_other, lset_other by auto. apply I3.
  - intros u Hu. rewrite tset_other; auto. intros ->. auto.
  - clear - Um I6. lia.
  - clear - Uu I7. lia.
  - clear - Uc I8. lia.
  - clear - Up I9. lia.
  - unfold sz in *. clear - Un Ub I10. lia.
Qed.

(** The files, the store or the state of the flush change, and the threads stay as they are. *)
Lemma xinv_flush recs T A x m f i b recs' T' w s g fl :
  xinv recs T A x m f i b ->
  shared e p recs' T' s w -> phase e p fp recs' T' s w fl -> st_kh s = st_kh (x_s x) ->
  same nokey (x_w x) w ->
  (st_c1 s = st_c1 (x_s x) \/ x_m x = 0) ->
  (forall t n g', hold (x_th x t) = Some (n, g') -> holder (st_c1 (x_s x)) (g_gen (x_g x)) (x_fl x) n g' ->
     holder (st_c1 s) (g_gen g) fl n g' /\ same (blk bs n) (x_w x) w) ->
  g_cur g = sumw (wc (g_gen g)) A (x_th x) -> g_prev g = sumw (wp (g_gen g)) A (x_th x) ->
  (forall ni nb, sz recs (x_s x) ni nb i b -> sz recs' s ni nb i b) ->
  (forall k, xabs recs' s k = xabs recs (x_s x) k) ->
  xinv recs' T' A (XSt w s (x_m x) (x_u x) g (x_th x) fl) m f i b.
Proof using Type.
  intros Hi Hsh Hph Hkh Hd Hc Hh Hgc Hgp Hsz Habs.
  assert (Wm : x_m x = 0 -> forall t, wm (x_th x t) = 0).
  { intros E t. pose proof (wt_le e p fp wm _ _ _ _ _ _ _ _ t Hi eq_refl) as W.
    rewrite <- (xi_m _ _ _ _ _ _ _ _ _ _ _ Hi), E in W. lia. }
  destruct Hi as [I1 I2 I3 I4 I5 I6 I7 I8 I9 I10 I11].
  constructor; cbn [x_w x_s x_m x_u x_g x_th x_fl]; auto.
  - intros t. rewrite Hkh. eapply tok_change; [apply I3|exact Hd| |].
    + destruct Hc as [->|E]; auto.
    + intros n g' Hho. apply (Hh t); auto.
  - intros k. rewrite I11, Habs. auto.
Qed.

Lemma dat_there recs T s w : shared e p recs T s w -> exists x, wget w FDat = Some x.
Proof using Type.
  intros Hs. assert (X : readable (vw recs T) FDat 0 0 []).
  { exists (db_hdr p ++ enc_recs recs). splits; auto. }
  apply (sh_dat _ _ _ _ _ _ Hs) in X; [|left; auto]. destruct X as (c & Hc & _). eauto.
Qed.

(** The store when nothing is in progress. *)
Lemma idle_sinv recs T s : shared e p recs T s (wend e p recs T) -> st_p0 s = pool_empty -> st_c1 s = [] ->
  sinv e p recs T s (wend e p recs T).
Proof using Type.
  intros [S1 S2 S3 S4 S5 S6 S7 S8 S9 S10 S11 S12 S13 S14] H0 H1.
  constructor; auto.
  - exact (disk_wlog e p recs T (vw recs T) (Some []) S1).
  - rewrite H0 in S14. cbn [pool_empty pl_map pkeys map app] in S14. exact S14.
Qed.

Lemma same_vw recs T kr w : wget w FDat = Some (db_hdr p ++ enc_recs recs) ->
  wget w FKey = Some (kfile bs (db_kb e p) T) -> same kr (vw recs T) w.
Proof using Type.
  intros H1 H2 f off len d [->|[-> _]] (c & Hc & Hr); exists c; split; auto.
  - rewrite H1. exact Hc.
  - rewrite H2. exact Hc.
Qed.

(** flush() begins: include/nudb/impl/basic_store.ipp:769-771, 589-604. *)
Lemma begin_sim recs T A x m f i b :
  xinv recs T A x m f i b -> x_fl x = FlIdle -> (too_long i b -> forall w, near_limit w -> fp EAssert w) ->
  xinv recs T A (set_fl (set_s x (swap_pools (x_s x)))
    (FlData (commit_begin e (st_kh (x_s x)) ;;;
       commit_data e (st_kh (x_s x)) (st_thresh (x_s x)) (st_frac (x_s x)) (st_buckets (x_s x)) (st_modulus (x_s x))
         (pl_map (st_p1 (x_s x)))))) m f i b.
Proof using Hp Hit.
  intros Hi Hfl Hlong. pose proof (xi_ph _ _ _ _ _ _ _ _ _ _ _ Hi) as Hph. rewrite Hfl in Hph.
  destruct Hph as (P0 & C1 & W0). pose proof (xi_sh _ _ _ _ _ _ _ _ _ _ _ Hi) as Hsh.
  rewrite W0 in Hsh. pose proof (idle_sinv _ _ _ Hsh P0 C1) as Hsi.
  destruct (xi_sz _ _ _ _ _ _ _ _ _ _ _ Hi) as [Z1 Z2].
  set (s := x_s x) in *. rewrite P0 in Z1, Z2. cbn [pool_empty pl_map pbytes] in Z1, Z2. rewrite blen_nil in Z1.
  assert (Hrun : forall q, q = commit_begin e (st_kh s) ;;;
      commit_data e (st_kh s) (st_thresh s) (st_frac s) (st_buckets s) (st_modulus s) (pl_map (st_p1 s)) ->
    (exists news st T', commit_run e p recs T s (wend e p recs T) news st T' /\
       blen news <= blen (pl_map (st_p1 s)) * (blen (kvs recs) + blen (pl_map (st_p1 s))) /\
       run q (x_w x) = (World (Some (db_hdr p ++ enc_recs (recs ++ map rec_of (pl_map (st_p1 s)) ++ news)))
         (Some (kfile bs (db_kb e p) T)) (Some (log0 e (st_kh s) recs T)), Ok st)) \/
    (exists w', run q (x_w x) = (w', Er EAssert) /\ fp EAssert w')).
  { intros q ->. rewrite W0.
    destruct (commit_data_run e p Hp recs T s _ Hsi) as (news & Hs & Hn & [(st & T' & Hc)|(w2 & Hbig & _ & Hr1 & Hr2)]).
    { left. exists news, st, T'. splits; auto.
      rewrite (run_ebind_ok _ _ _ _ _ (cr_begin _ _ _ _ _ _ _ _ _ Hc)).
      rewrite (cr_data _ _ _ _ _ _ _ _ _ Hc). f_equal. }
    right. exists w2. split; [rewrite (run_ebind_ok _ _ _ _ _ Hr1); exact Hr2|].
    apply Hlong; [|exact (too_big_near _ _ Hbig)].
    assert (Hbs : kh_block_size (st_kh s) <= 65535 /\ 1 <= bucket_capacity (kh_block_size (st_kh s))).
    { destruct (si_kh _ _ _ _ _ _ Hsi) as (B & ->). cbn [db_kh kh_block_size].
      split; [apply p_bs; auto|apply p_cap; auto]. }
    pose proof (blen_spills _ _ (proj1 Hbs) (proj2 Hbs) Hs) as Hsp.
    apply proj1 in Hbig. unfold too_long, dat_hdr_size in *. rewrite !enc_recs_app, !blen_app, blen_recs in Hbig.
    set (c := blen (kvs recs)) in *. set (a := blen (pl_map (st_p1 s))) in *.
    assert (H1 : (c + a) * (c + a) <= i * i) by (apply sq_mono; lia).
    assert (H2 : c * c + a * (c + a) <= (c + a) * (c + a)) by nia.
    lia. }
  specialize (Hrun _ eq_refl).
  unfold set_fl, set_s. cbn [x_w x_s x_m x_u x_g x_th x_fl].
  eapply xinv_flush; eauto; fold s; unfold swap_pools; cbn [st_kh st_p0 st_p1 st_c1 st_frac st_thresh st_buckets st_modulus st_ec].
  - rewrite W0. destruct Hsh as [S1 S2 S3 S4 S5 S6 S7 S8 S9 S10 S11 S12 S13 S14].
    constructor; cbn [st_kh st_p0 st_p1 st_c1 st_frac st_thresh st_buckets st_modulus st_ec]; auto.
    eapply Permutation_NoDup; [|exact S14]. rewrite P0. cbn [pool_empty pl_map pkeys map app]. auto.
  - apply phase_on. cbn [phase0 st_c1 st_p0 st_kh]. split; [auto|]. split; [|split].
    3: { destruct Hrun as [(news & st & T' & Hc & Hn & Hr)|X]; [left|right; exact X].
      exists news, st, T', s, (wend e p recs T). cbv zeta. splits; auto. }
    + eapply ao_any. apply (ao_ebind dop anyres).
      * unfold commit_begin. repeat (apply (ao_ebind dop anyres); [|intros ? _]).
        -- apply ao_num. left. exact I.
        -- apply ao_num. left. exact I.
        -- apply ao_unit. right. right. right. eauto.
        -- apply ao_unit. right. left. eauto.
      * intros _ _. eapply ao_weaken; [apply ops_commit_data| |intros [|] _; exact I].
        intros o [Ho|(off & d & ->)]; [left; exact Ho|]. right. right. left. eauto.
    + apply strict_ebind; [unfold commit_begin; repeat st1|]. intros _. unfold commit_data.
      st1; [st1|]. st1; [apply strict_commit_records|]. destruct a0 as [l w].
      st1; [apply strict_commit_inserts|]. st1; [apply strict_bw_flush|st1].
  - apply same_refl.
  - intros t n g' _ Hh. split; [|apply same_refl]. unfold holder in *. tauto.
  - apply (xi_c _ _ _ _ _ _ _ _ _ _ _ Hi).
  - apply (xi_p _ _ _ _ _ _ _ _ _ _ _ Hi).
  - intros ni nb. unfold sz. cbn [st_p0 st_p1]. lia.
  - intros k. unfold xabs. cbn [st_p0 st_p1]. rewrite P0. change (pool_find pool_empty k) with (@None pelem).
    destruct (pool_find (st_p1 s) k); auto.
Qed.

(** An operation of the flush before the publication. *)
Lemma data_sim recs T A x m f i b o c :
  xinv recs T A x m f i b -> x_fl x = FlData (Do o c) ->
  xinv recs T A (let (w, r) := exec o (x_w x) in set_fl (set_w x w) (FlData (c r))) m f i b.
Proof using Type.
  intros Hi Hfl. pose proof (xi_ph _ _ _ _ _ _ _ _ _ _ _ Hi) as Hph. rewrite Hfl in Hph.
  destruct Hph as (C1 & Q7 & Q8 & Q6).
  pose proof (xi_sh _ _ _ _ _ _ _ _ _ _ _ Hi) as Hsh.
  destruct (dat_there _ _ _ _ Hsh) as (xd & Hxd).
  apply ao_do_inv in Q7 as [Ho Q7]. pose proof (strict_do_inv _ _ Q8) as Q8'.
  assert (Hs : forall kr, same kr (x_w x) (fst (exec o (x_w x)))) by (intros kr; eapply same_dop; eauto).
  destruct (exec o (x_w x)) as [w r] eqn:Ex. cbn [fst] in Hs.
  unfold set_fl, set_w. cbn [x_w x_s x_m x_u x_g x_th x_fl].
  eapply xinv_flush; eauto.
  - destruct Hsh as [S1 S2 S3 S4 S5 S6 S7 S8 S9 S10 S11 S12 S13 S14]. constructor; auto.
    + eapply same_trans; eauto.
    + intros n Hn Hc. eapply same_trans; eauto.
  - apply phase_on. cbn [phase0]. split; [auto|]. split; [auto|]. split; [auto|]. cbn [run] in Q6. rewrite Ex in Q6. exact Q6.
  - intros t n g' _ Hh. rewrite Hfl in Hh. split; auto.
  - apply (xi_c _ _ _ _ _ _ _ _ _ _ _ Hi).
  - apply (xi_p _ _ _ _ _ _ _ _ _ _ _ Hi).
Qed.

Lemma kvs_pool recs l kh news : spills_only kh news ->
  kvs (recs ++ map rec_of l ++ news) = kvs recs ++ map (fun y => (pe_key y, pe_data y)) l.
Proof using Type. intros Hs. rewrite !kvs_app, kvs_recs, (kvs_spills _ _ Hs), app_nil_r. auto. Qed.

(** The publication of the new buckets: include/nudb/impl/basic_store.ipp:692-701. *)
Lemma publish_sim recs T A x m f i b st :
  xinv recs T A x m f i b -> x_fl x = FlData (Ret (Ok st)) -> x_m x = 0 ->
  exists recs' T',
    xinv recs' T' A (set_fl (set_g (set_s x (publish (x_s x) st)) (g_start (x_g x))) (FlLog (commit_log e (cs_c0 st)))) m f i b /\
    (forall k, kfind (kvs recs') k = frozen recs (x_s x) k).
Proof using Hp Hit.
  intros Hi Hfl Hm0. pose proof (xi_ph _ _ _ _ _ _ _ _ _ _ _ Hi) as Hph. rewrite Hfl in Hph.
  destruct Hph as (C1 & _ & _ & [(news & st' & T' & s0 & w0 & Q1 & Q2 & Q3 & Q4 & Q5 & Q6)|(w' & Q6 & _)]); [|discriminate].
  pose proof (xi_sh _ _ _ _ _ _ _ _ _ _ _ Hi) as Hsh. set (s := x_s x) in *.
  cbn [run] in Q6. injection Q6 as Hw <-.
  set (recs' := recs ++ map rec_of (pl_map (st_p0 s)) ++ news) in *.
  exists recs', T'.
  pose proof (commit_rest e p Hp Hit _ _ _ _ _ _ _ Q1 Q4) as X. rewrite Q3 in X. fold recs' in X. cbv zeta in X.
  destruct X as (_ & R2 & R3 & R4).
  pose proof (cr_disk _ _ _ _ _ _ _ _ _ Q4) as Hd'. unfold cr_recs in Hd'. rewrite Q3 in Hd'. fold recs' in Hd'.
  destruct (sh_kh _ _ _ _ _ _ Hsh) as (B & HB). 
  assert (HB0 : st_kh s0 = db_kh e p B) by (rewrite Q2; exact HB).
  pose proof (cr_cinv _ _ _ _ _ _ _ _ _ Q4) as Hci.
  pose proof (cr_spills _ _ _ _ _ _ _ _ _ Q4) as Hsp.
  pose proof (kvs_pool recs (pl_map (st_p0 s)) _ _ Hsp) as Hkv. fold recs' in Hkv.
  assert (Hd1 : disk e p recs' T' (vw recs' T')).
  { exact (disk_wlog e p recs' T' _ None Hd'). }
  assert (Hfz : forall k, kfind (kvs recs') k = frozen recs s k).
  { intros k. rewrite Hkv. apply frozen_app. apply nodup_r with (1 := sh_nd _ _ _ _ _ _ Hsh). }
  split; [|exact Hfz].
  unfold set_fl, set_g, set_s. cbn [x_w x_s x_m x_u x_g x_th x_fl].
  eapply xinv_flush; eauto; fold s; unfold publish;
    cbn [st_kh st_p0 st_p1 st_c1 st_frac st_thresh st_buckets st_modulus st_ec].
  - destruct Hsh as [S1 S2 S3 S4 S5 S6 S7 S8 S9 S10 S11 S12 S13 S14].
    constructor; cbn [st_kh st_p0 st_p1 st_c1 st_frac st_thresh st_buckets st_modulus st_ec]; auto.
    + rewrite Hw. intros ff off len d [->|[_ []]] (c & Hc & Hr). exists c. split; auto.
    + intros n Hn Hc. destruct (ci_n _ _ _ _ _ Hci n Hn Hc) as [H1 H2].
      rewrite Hw. eapply same_kblock; [exact Hp| | |exact Hn|exact H1|symmetry; exact H2|reflexivity|reflexivity].
      * apply (disk_bent e p recs' T' _ Hd1 0).
      * apply (disk_bent e p recs T _ S1 0).
    + intros n q Hc. destruct (ci_c1 _ _ _ _ _ Hci n q Hc) as [H1 H2]. split; auto.
      unfold brep in H2. rewrite HB0 in H2. exact H2.
    + apply (ci_nd1 _ _ _ _ _ Hci).
    + pose proof (cr_frac _ _ _ _ _ _ _ _ _ Q4) as X. rewrite (si_thresh _ _ _ _ _ _ Q1) in X. exact X.
    + apply (cr_buckets _ _ _ _ _ _ _ _ _ Q4).
    + apply (cr_modulus _ _ _ _ _ _ _ _ _ Q4).
    + constructor.
    + cbn [pool_empty pl_map pkeys map app]. rewrite Hkv, map_app, map_map.
      eapply Permutation_NoDup; [|exact S14]. apply Permutation_app_head. apply Permutation_app_comm.
  - apply phase_on. cbn [phase0 st_p0 st_c1]. split; [auto|]. split.
    + rewrite HB0 in R3. cbn [db_kh kh_block_size] in R3.
      rewrite Hw. rewrite (run_ebind_ok _ _ _ _ _ R2), (run_ebind_ok _ _ _ _ _ R3). exact R4.
    + split; [|apply strict_commit_log].
      eapply ao_any. unfold commit_log. apply (ao_ebind lop anyres).
      { apply ao_num. left. exact I. }
      intros off _. cbv zeta.
      assert (L : forall o, app_to FLog o -> lop o).
      { intros o [Ho|(a1 & a2 & ->)]; [left; exact Ho|right; right; left; eauto]. }
      apply (ao_ebind lop (writer_to FLog)).
      { eapply ao_weaken; [apply (ops_commit_log_records FLog)|exact L|auto]. split; reflexivity. }
      intros w1 Hw1. apply (ao_ebind lop anyres).
      { eapply ao_weaken; [apply (ops_bw_flush FLog); exact Hw1|exact L|intros [|] _; exact I]. }
      intros ? _. apply ao_unit. right. left. eauto.
  - apply same_refl.
  - intros t n g' _ Hh. split; [|apply same_refl]. destruct Hh as (H1 & _ & _).
    unfold holder, g_start. cbn [g_gen]. splits; auto; [lia|]. intros ->. exfalso. lia.
  - unfold g_start. cbn [g_cur g_gen]. symmetry. apply sumw_zero. intros t _.
    pose proof (xi_th _ _ _ _ _ _ _ _ _ _ _ Hi t) as Ht. unfold wc.
    destruct (x_th x t); cbn [hold tok] in *; auto.
    + destruct Ht as (r & _ & _ & H1 & _). destruct (N.eqb_spec g (g_gen (x_g x) + 1)); auto. lia.
    + destruct Ht as (_ & (H1 & _) & _). destruct (N.eqb_spec g (g_gen (x_g x) + 1)); auto. lia.
  - unfold g_start. cbn [g_prev g_gen].
    rewrite (xi_c _ _ _ _ _ _ _ _ _ _ _ Hi), (xi_p _ _ _ _ _ _ _ _ _ _ _ Hi), <- sumw_add.
    apply sumw_ext. intros t _. pose proof (xi_th _ _ _ _ _ _ _ _ _ _ _ Hi t) as Ht. unfold wc, wp.
    destruct (x_th x t); cbn [hold tok] in *; auto.
    + destruct Ht as (r & _ & _ & H1 & _). destruct (N.eqb_spec g (g_gen (x_g x) + 1)); [lia|].
      destruct (g =? g_gen (x_g x)); auto.
    + destruct Ht as (_ & (H1 & _) & _). destruct (N.eqb_spec g (g_gen (x_g x) + 1)); [lia|].
      destruct (g =? g_gen (x_g x)); auto.
  - intros ni nb. unfold sz. cbn [st_p0 st_p1 pool_empty pl_map pbytes]. rewrite Hkv, blen_app, blen_map.
    change (blen (@nil pelem)) with 0.
    assert (Hbs : kh_block_size (st_kh s0) <= 65535 /\ 1 <= bucket_capacity (kh_block_size (st_kh s0))).
    { rewrite HB0. cbn [db_kh kh_block_size]. split; [apply p_bs; auto|apply p_cap; auto]. }
    pose proof (blen_spills _ _ (proj1 Hbs) (proj2 Hbs) Hsp) as Hsz.
    unfold recs'. rewrite !enc_recs_app, !blen_app, blen_recs.
    set (c := blen (kvs recs)) in *. set (a := blen (pl_map (st_p0 s))) in *.
    set (nn := blen news) in *. clear - Q5 Hsz. intros [Z1 Z2]. split; [lia|]. nia.
  - intros k. unfold xabs. cbn [st_p0 st_p1]. destruct (pool_find (st_p1 s) k); auto.
    change (pool_find pool_empty k) with (@None pelem). cbv iota.
    rewrite Hfz. reflexivity.
Qed.

(** An operation on the log. *)
Lemma log_sim recs T A x m f i b o c :
  xinv recs T A x m f i b -> x_fl x = FlLog (Do o c) ->
  xinv recs T A (let (w, r) := exec o (x_w x) in set_fl (set_w x w) (FlLog (c r))) m f i b.
Proof using Type.
  intros Hi Hfl. pose proof (xi_ph _ _ _ _ _ _ _ _ _ _ _ Hi) as Hph. rewrite Hfl in Hph.
  destruct Hph as (P0 & Q6 & Q7 & Q8). pose proof (strict_do_inv _ _ Q8) as Q8'.
  pose proof (xi_sh _ _ _ _ _ _ _ _ _ _ _ Hi) as Hsh.
  apply ao_do_inv in Q7 as [Ho Q7].
  assert (Hs : forall kr, same kr (x_w x) (fst (exec o (x_w x)))) by (intros kr; eapply same_lop; eauto).
  unfold ebind in Q6. cbn [bind run] in Q6. destruct (exec o (x_w x)) as [w r]. cbn [fst] in Hs.
  unfold set_fl, set_w. cbn [x_w x_s x_m x_u x_g x_th x_fl].
  eapply xinv_flush; eauto.
  - destruct Hsh as [S1 S2 S3 S4 S5 S6 S7 S8 S9 S10 S11 S12 S13 S14]. constructor; auto.
    + eapply same_trans; eauto.
    + intros n Hn Hc. eapply same_trans; eauto.
  - apply phase_on. cbn [phase0]. splits; auto.
  - intros t n g' _ Hh. rewrite Hfl in Hh. split; auto.
  - apply (xi_c _ _ _ _ _ _ _ _ _ _ _ Hi).
  - apply (xi_p _ _ _ _ _ _ _ _ _ _ _ Hi).
Qed.

(** The log is written: on to the wait. *)
Lemma wait_sim recs T A x m f i b y :
  xinv recs T A x m f i b -> x_fl x = FlLog (Ret (Ok y)) -> xinv recs T A (set_fl x FlWait) m f i b.
Proof using Type.
  intros Hi Hfl. pose proof (xi_ph _ _ _ _ _ _ _ _ _ _ _ Hi) as Hph. rewrite Hfl in Hph.
  destruct Hph as (P0 & Q6 & Q7 & Q8). unfold set_fl.
  eapply xinv_flush; eauto; try apply same_refl.
  - apply (xi_sh _ _ _ _ _ _ _ _ _ _ _ Hi).
  - apply phase_on. cbn [phase0]. split; auto.
  - intros t n g' _ Hh. rewrite Hfl in Hh. split; auto. apply same_refl.
  - apply (xi_c _ _ _ _ _ _ _ _ _ _ _ Hi).
  - apply (xi_p _ _ _ _ _ _ _ _ _ _ _ Hi).
Qed.

(** finish() returns: include/nudb/impl/basic_store.ipp:728. *)
Lemma finish_sim recs T A x m f i b :
  xinv recs T A x m f i b -> x_fl x = FlWait -> g_finished (x_g x) = true ->
  xinv recs T A (set_fl x (FlKey (commit_key (kh_block_size (st_kh (x_s x))) (e_iter e (st_c1 (x_s x))) ;;; commit_end))) m f i b.
Proof using Hit.
  intros Hi Hfl Hg. pose proof (xi_ph _ _ _ _ _ _ _ _ _ _ _ Hi) as Hph. rewrite Hfl in Hph.
  destruct Hph as (P0 & Q6). unfold set_fl.
  pose proof (xi_sh _ _ _ _ _ _ _ _ _ _ _ Hi) as Hsh. destruct (sh_kh _ _ _ _ _ _ Hsh) as (B & HB).
  rewrite HB. cbn [db_kh kh_block_size].
  assert (Hz : sumw (wp (g_gen (x_g x))) A (x_th x) = 0).
  { rewrite <- (xi_p _ _ _ _ _ _ _ _ _ _ _ Hi). unfold g_finished in Hg. lia. }
  eapply xinv_flush; eauto; try apply same_refl.
  - apply phase_on. cbn [phase0]. splits; auto; [|apply strict_key_end].
    eapply ao_any. apply (ao_ebind (kop bs (st_c1 (x_s x))) anyres).
    + eapply ao_weaken; [apply (ops_commit_key bs _ (st_c1 (x_s x)))|intros o Ho; right; exact Ho|intros [|] _; exact I].
      intros y Hy. eapply Permutation_in; [apply Permutation_sym, Hit|exact Hy].
    + intros _ _. unfold commit_end.
      repeat (apply (ao_ebind (kop bs (st_c1 (x_s x))) anyres); [|intros ? _]); apply ao_unit; left; right; eauto.
  - intros t n g' Ht Hh. split; [|apply same_refl]. destruct Hh as (H1 & H2 & _). unfold holder. splits; auto.
    pose proof (wt_le e p fp (wp (g_gen (x_g x))) _ _ _ _ _ _ _ _ t Hi (proj1 (proj2 (proj2 (proj2 wt_idle))) _)) as W. rewrite Hz in W.
    unfold wp in W. rewrite Ht in W. destruct (N.eqb_spec g' (g_gen (x_g x))); auto. lia.
  - apply (xi_c _ _ _ _ _ _ _ _ _ _ _ Hi).
  - apply (xi_p _ _ _ _ _ _ _ _ _ _ _ Hi).
Qed.

(** An operation on the key file, or on the log afterwards. *)
Lemma key_sim recs T A x m f i b o c :
  xinv recs T A x m f i b -> x_fl x = FlKey (Do o c) ->
  xinv recs T A (let (w, r) := exec o (x_w x) in set_fl (set_w x w) (FlKey (c r))) m f i b.
Proof using Hp.
  intros Hi Hfl. pose proof (xi_ph _ _ _ _ _ _ _ _ _ _ _ Hi) as Hph. rewrite Hfl in Hph.
  destruct Hph as (P0 & Q6 & Q7 & Q8). pose proof (strict_do_inv _ _ Q8) as Q8'.
  pose proof (xi_sh _ _ _ _ _ _ _ _ _ _ _ Hi) as Hsh.
  apply ao_do_inv in Q7 as [Ho Q7].
  assert (Hs : same nokey (x_w x) (fst (exec o (x_w x))) /\
    forall n, cache_find (st_c1 (x_s x)) n = None -> same (blk bs n) (x_w x) (fst (exec o (x_w x)))).
  { destruct Ho as [Ho|(n' & q & Hin & ->)]; [split; intros; eapply same_lop; eauto|].
    assert (Hf : cache_find (st_c1 (x_s x)) n' = Some q).
    { apply cache_In_find; auto. apply (sh_nd1 _ _ _ _ _ _ Hsh). }
    destruct (sh_c1 _ _ _ _ _ _ Hsh n' q Hf) as [H1 H2].
    assert (Hl : blen (bk_padded (bk_of_blob q)) = bs).
    { rewrite (padded_rep _ _ _ _ H2). apply blen_enc_block.
      pose proof (disk_bent e p recs T _ (sh_disk _ _ _ _ _ _ Hsh) 0 n' H1) as Hb.
      exact (bent_ok_fits (db_kh e p 0) (p_cap p Hp) _ Hb). }
    destruct (wget (x_w x) FKey) as [xk|] eqn:Ek.
    - assert (S : forall n, cache_find (st_c1 (x_s x)) n = None ->
        same (blk bs n) (x_w x) (fst (exec (IoWrite FKey false ((n' + 1) * bs) (bk_padded (bk_of_blob q))) (x_w x)))).
      { intros n Hn. eapply same_block; eauto. intros ->. congruence. }
      split; [|exact S].
      intros ff off len d [->|[_ []]] (y & Hy & Hr). exists y. split; auto.
      cbn [exec]. rewrite Ek. cbn [andb fst]. rewrite wget_wset_other by discriminate. auto.
    - cbn [exec]. rewrite Ek. cbn [fst]. split; intros; apply same_refl. }
  destruct Hs as [Hs1 Hs2].
  cbn [run] in Q6. destruct (exec o (x_w x)) as [w r]. cbn [fst] in *.
  unfold set_fl, set_w. cbn [x_w x_s x_m x_u x_g x_th x_fl].
  eapply xinv_flush; eauto.
  - destruct Hsh as [S1 S2 S3 S4 S5 S6 S7 S8 S9 S10 S11 S12 S13 S14]. constructor; auto.
    + eapply same_trans; eauto.
    + intros n Hn Hc. eapply same_trans; eauto.
  - apply phase_on. cbn [phase0]. splits; auto.
  - intros t n g' _ Hh. rewrite Hfl in Hh. split; auto. apply Hs2. destruct Hh as (_ & H2 & H3). auto.
  - apply (xi_c _ _ _ _ _ _ _ _ _ _ _ Hi).
  - apply (xi_p _ _ _ _ _ _ _ _ _ _ _ Hi).
Qed.

(** The end of a flush: include/nudb/impl/basic_store.ipp:750-755. *)
Lemma end_sim recs T A x m f i b y :
  xinv recs T A x m f i b -> x_fl x = FlKey (Ret (Ok y)) -> x_m x = 0 ->
  xinv recs T A (set_fl (set_s x (clear_c1 (x_s x))) FlIdle) m f i b.
Proof using Type.
  intros Hi Hfl Hm0. pose proof (xi_ph _ _ _ _ _ _ _ _ _ _ _ Hi) as Hph. rewrite Hfl in Hph.
  destruct Hph as (P0 & Q6 & _). cbn [run] in Q6. injection Q6 as Hw _.
  pose proof (xi_sh _ _ _ _ _ _ _ _ _ _ _ Hi) as Hsh.
  unfold set_fl, set_s. cbn [x_w x_s x_m x_u x_g x_th x_fl].
  eapply xinv_flush; eauto; unfold clear_c1; cbn [st_kh st_p0 st_p1 st_c1 st_frac st_thresh st_buckets st_modulus st_ec];
    try apply same_refl.
  - destruct Hsh as [S1 S2 S3 S4 S5 S6 S7 S8 S9 S10 S11 S12 S13 S14].
    constructor; cbn [st_kh st_p0 st_p1 st_c1 st_frac st_thresh st_buckets st_modulus st_ec]; auto.
    + intros n Hn _. rewrite Hw. apply same_vw; reflexivity.
    + intros n q Hc. discriminate.
    + constructor.
  - apply phase_on. cbn [phase0 st_p0 st_c1]. splits; auto.
  - intros t n g' _ Hh. split; [|apply same_refl]. destruct Hh as (H1 & H2 & H3). unfold holder. splits; auto.
  - apply (xi_c _ _ _ _ _ _ _ _ _ _ _ Hi).
  - apply (xi_p _ _ _ _ _ _ _ _ _ _ _ Hi).
Qed.

(** Every transition of the flush. *)
Lemma flush_sim recs T A x m f i b x' :
  xinv recs T A x m f i b -> (too_long i b -> forall w, near_limit w -> fp EAssert w) -> flush_step e x = Some x' ->
  exists recs' T', xinv recs' T' A x' m f i b.
Proof using Hp Hit.
  intros Hi Hl. unfold flush_step. destruct (x_fl x) as [|q|q| |q] eqn:Hfl.
  - destruct (x_m x =? 0); [|discriminate]. destruct (pool_is_empty (st_p1 (x_s x))); intros E; injection E as <-; [eauto|].
    exists recs, T. apply begin_sim; auto.
  - destruct q as [[st|er]|o c]; [|discriminate|].
    + destruct (N.eqb_spec (x_m x) 0); [|discriminate]. intros E; injection E as <-.
      destruct (publish_sim _ _ _ _ _ _ _ _ _ Hi Hfl e0) as (r1 & T1 & X & _). eauto.
    + pose proof (data_sim _ _ _ _ _ _ _ _ _ _ Hi Hfl) as X. destruct (exec o (x_w x)).
      intros E; injection E as <-. eauto.
  - destruct q as [[u|er]|o c]; [|discriminate|].
    + intros E; injection E as <-. exists recs, T. eapply wait_sim; eauto.
    + pose proof (log_sim _ _ _ _ _ _ _ _ _ _ Hi Hfl) as X. destruct (exec o (x_w x)).
      intros E; injection E as <-. eauto.
  - destruct (g_finished (x_g x)) eqn:Hg; [|discriminate]. intros E; injection E as <-.
    exists recs, T. apply finish_sim; auto.
  - destruct q as [[u|er]|o c]; [|discriminate|].
    + destruct (N.eqb_spec (x_m x) 0); [|discriminate]. intros E; injection E as <-.
      exists recs, T. eapply end_sim; eauto.
    + pose proof (key_sim _ _ _ _ _ _ _ _ _ _ Hi Hfl) as X. destruct (exec o (x_w x)).
      intros E; injection E as <-. eauto.
Qed.
End Conc.
