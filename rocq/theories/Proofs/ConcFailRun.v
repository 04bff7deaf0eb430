(** Executions of a store used by several threads in which file operations fail. *)
From Verif Require Import Model.Bytes Model.Err Model.Field Model.Format Model.IO Model.BulkIO
  Model.Bucket Model.Pool Model.Recover Model.Create Model.Store Spec SpecLin SpecDurable SpecFail Model.History Model.Crash
  Model.Events Model.Concurrent Model.ConcCrash Model.ConcFail
  Proofs.BytesFacts Proofs.IOFacts Proofs.PoolFacts Proofs.BucketFacts Proofs.BulkFacts Proofs.HashFacts
  Proofs.Table Proofs.Lookup Proofs.CommitFacts Proofs.CommitInv Proofs.CommitRun Proofs.StoreInv
  Proofs.SplitFacts Proofs.OpenFacts Proofs.HistoryFacts Proofs.LifeFacts Proofs.MapFacts Proofs.SafeFacts
  Proofs.CommitOps Proofs.CrashFacts Proofs.RecoverFacts Proofs.EventFacts
  Proofs.ConcFacts Proofs.ConcLook Proofs.ConcInv Proofs.ConcStep Proofs.ConcFlush Proofs.ConcTheorems Proofs.ConcDurable
  Proofs.ConcFailInv.
Opaque loop.
Local Opaque lhead dat0 key0.

(** ** The specification *)
Lemma fruns_app s h s1 : fruns s h s1 -> forall h' s2, fruns s1 h' s2 -> fruns s (h ++ h') s2.
Proof.
  intros H1 h' s2 H2. induction H2 as [s1|s1 h' s2 h'' s3 H2 IH Hs]; [rewrite app_nil_r; auto|].
  rewrite app_assoc. eapply fr_step; eauto.
Qed.
Lemma fruns_one s h s1 : fstep s h s1 -> fruns s h s1.
Proof. intros H. change h with ([] ++ h). eapply fr_step; [apply fr_nil|exact H]. Qed.
Lemma fruns_cons s h s1 h' s2 : fstep s h s1 -> fruns s1 h' s2 -> fruns s (h ++ h') s2.
Proof. intros H1 H2. eapply fruns_app; [apply fruns_one; eauto|auto]. Qed.

Lemma atomic_fruns m f h m' f' d o x : atomic m f h m' f' ->
  fruns (FSt m d o x f) (map (fun v => FDev (DEv v)) h) (FSt m' d o x f').
Proof.
  induction 1 as [m f|m f t c h m' f' Hf Ha IH|m f t c h m' f' Hf Ha IH|m f t r h m' f' Hf Ha IH]; cbn [map].
  - apply fr_nil.
  - apply (fruns_cons _ [_] _ _ _ (ff_call m d o x f t c Hf) IH).
  - apply (fruns_cons _ [] _ _ _ (ff_effect m d o x f t c Hf) IH).
  - apply (fruns_cons _ [_] _ _ _ (ff_ret m d o x f t r Hf) IH).
Qed.
Lemma datomic_fruns m d o f h m' d' o' f' : datomic m d o f h m' d' o' f' ->
  fruns (FSt m d o false f) (map FDev h) (FSt m' d' o' false f').
Proof.
  induction 1; cbn [map].
  - apply fr_nil.
  - exact (fruns_cons _ [_] _ _ _ (ff_call m d o false f t c H) IHdatomic).
  - exact (fruns_cons _ [] _ _ _ (ff_effect m d o false f t c H) IHdatomic).
  - exact (fruns_cons _ [_] _ _ _ (ff_ret m d o false f t r H) IHdatomic).
  - exact (fruns_cons _ [_] _ _ _ (ff_begin m d f) IHdatomic).
  - exact (fruns_cons _ [_] _ _ _ (ff_end m d m1 f) IHdatomic).
  - exact (fruns_cons _ [_] _ _ _ (ff_lost m d o false f) IHdatomic).
  - exact (fruns_cons _ [_] _ _ _ (ff_kept m d m1 false f) IHdatomic).
Qed.

Lemma fcalls_app h h' : fcalls (h ++ h') = fcalls h ++ fcalls h'.
Proof.
  induction h as [|ev h IH]; auto. destruct ev as [[[t c|t r]| | |]| |]; cbn [app fcalls]; auto. rewrite IH. auto.
Qed.
Lemma fcalls_map h : fcalls (map FDev h) = dcalls h.
Proof. induction h as [|ev h IH]; auto. destruct ev as [[t c|t r]| | |]; cbn [map fcalls dcalls]; auto. rewrite IH. auto. Qed.
Lemma fcalls_hev h : fcalls (map (fun v => FDev (DEv v)) h) = calls h.
Proof. induction h as [|ev h IH]; auto. destruct ev; cbn [map fcalls calls]; auto. rewrite IH. auto. Qed.

Lemma flush_error_failed fl er : flush_error fl = Some er -> fl_failed fl = true.
Proof. destruct fl as [|[[a|er0]|o c]|[[a|er0]|o c]| |[[a|er0]|o c]]; cbn; congruence. Qed.
Lemma failed_flush_error fl : fl_failed fl = true -> exists er, flush_error fl = Some er.
Proof. destruct fl as [|[[a|er0]|o c]|[[a|er0]|o c]| |[[a|er0]|o c]]; cbn; try discriminate; eauto. Qed.
Lemma phase_error e p fp recs T s w fl er : flush_error fl = Some er -> phase e p fp recs T s w fl = fp er w.
Proof.
  destruct fl as [|[[a|er0]|o c]|[[a|er0]|o c]| |[[a|er0]|o c]]; cbn [flush_error]; try discriminate;
    intros E; injection E as ->; reflexivity.
Qed.
Lemma flush_step_ok e x x' : flush_step e x = Some x' -> fl_failed (x_fl x) = false.
Proof.
  unfold flush_step. cbv zeta. destruct (x_fl x) as [|[[a|er0]|o c]|[[a|er0]|o c]| |[[a|er0]|o c]]; auto; discriminate.
Qed.

Section Conc.
Variables (e : env) (p : dbp).
Hypothesis Hp : dbp_ok p.
Hypothesis Hit : iter_ok e.
Notation bs := (db_block_size p).
Notation ks := (db_key_size p).
Notation wend := (wend e p).
Notation found := (found e p).

(** An operation of the flush fails. *)
Lemma flush_failed_xinv (fp : err -> world -> Prop) recs T A x m f i b o n w' :
  xinv e p fp recs T A x m f i b -> flush_io (x_fl x) = Some o -> failed log_in_order o (x_w x) w' -> fp (EIO n) w' ->
  flush_error (flush_failed (x_fl x) (EIO n)) = Some (EIO n) /\
  xinv e p fp recs T A (set_fl (set_w x w') (flush_failed (x_fl x) (EIO n))) m f i b.
Proof using Hp.
  intros Hi Ho Hf Hfp. pose proof (xi_ph _ _ _ _ _ _ _ _ _ _ _ Hi) as Hph.
  pose proof (xi_sh _ _ _ _ _ _ _ _ _ _ _ Hi) as Hsh.
  assert (X : flush_error (flush_failed (x_fl x) (EIO n)) = Some (EIO n) /\
    same nokey (x_w x) w' /\
    (forall k, cache_find (st_c1 (x_s x)) k = None -> same (blk bs k) (x_w x) w') /\
    (forall k g, holder (st_c1 (x_s x)) (g_gen (x_g x)) (x_fl x) k g ->
       holder (st_c1 (x_s x)) (g_gen (x_g x)) (flush_failed (x_fl x) (EIO n)) k g /\ same (blk bs k) (x_w x) w')).
  { unfold phase in Hph. destruct (x_fl x) as [|[[a|er]|o1 c]|[[a|er]|o1 c]| |[[a|er]|o1 c]] eqn:Hfl; try discriminate Ho;
      injection Ho as ->; cbn [phase0] in Hph.
    - destruct Hph as (C1 & Q7 & Q8 & _).
      apply ao_do_inv in Q7 as [Ho _]. cbn [flush_failed]. rewrite (strict_err _ _ _ Q8).
      assert (S : forall kr, same kr (x_w x) w') by (intros; eapply same_failed_dop; eauto).
      splits; auto.
    - destruct Hph as (P0 & Q6 & Q7 & Q8).
      apply ao_do_inv in Q7 as [Ho _]. cbn [flush_failed]. rewrite (strict_err _ _ _ Q8).
      assert (S : forall kr, same kr (x_w x) w') by (intros; eapply same_failed_lop; eauto).
      splits; auto.
    - destruct Hph as (P0 & Q6 & Q7 & Q8).
      apply ao_do_inv in Q7 as [Ho _]. cbn [flush_failed]. rewrite (strict_err _ _ _ Q8).
      assert (S : same nokey (x_w x) w' /\ forall k, cache_find (st_c1 (x_s x)) k = None -> same (blk bs k) (x_w x) w').
      { destruct Ho as [Ho|(n' & q & Hin & ->)]; [split; intros; eapply same_failed_lop; eauto|].
        assert (Hcf : cache_find (st_c1 (x_s x)) n' = Some q).
        { apply cache_In_find; auto. apply (sh_nd1 _ _ _ _ _ _ Hsh). }
        destruct (sh_c1 _ _ _ _ _ _ Hsh n' q Hcf) as [H1 H2].
        assert (Hl : blen (bk_padded (bk_of_blob q)) = bs).
        { rewrite (padded_rep _ _ _ _ H2). apply blen_enc_block.
          pose proof (disk_bent e p recs T _ (sh_disk _ _ _ _ _ _ Hsh) 0 n' H1) as Hb.
          exact (bent_ok_fits (db_kh e p 0) (p_cap p Hp) _ Hb). }
        split.
        - eapply same_nokey. eapply (same_failed_block bs (n' + 1)); [|exact Hl|exact Hf]. lia.
        - intros k Hk. eapply same_failed_block; [|exact Hl|exact Hf]. intros ->. congruence. }
      destruct S as [S1 S2]. splits; auto. intros k g Hh. split; [exact Hh|]. apply S2. destruct Hh as (_ & H2 & H3). auto. }
  destruct X as (X1 & X2 & X3 & X4). split; [exact X1|].
  unfold set_fl, set_w. cbn [x_w x_s x_m x_u x_g x_th x_fl].
  eapply xinv_flush; eauto.
  - destruct Hsh as [S1 S2 S3 S4 S5 S6 S7 S8 S9 S10 S11 S12 S13 S14]. constructor; auto.
    + eapply same_trans; eauto.
    + intros k Hn Hc. eapply same_trans; eauto.
  - rewrite (phase_error _ _ _ _ _ _ _ _ _ X1). exact Hfp.
  - apply (xi_c _ _ _ _ _ _ _ _ _ _ _ Hi).
  - apply (xi_p _ _ _ _ _ _ _ _ _ _ _ Hi).
Qed.

Lemma rest_failed s fl er : flush_error fl = Some er -> rest e p s fl = Ret (Er er).
Proof using Type.
  destruct fl as [|[[a|er0]|o c]|[[a|er0]|o c]| |[[a|er0]|o c]]; cbn [flush_error]; try discriminate;
    intros E; injection E as ->; reflexivity.
Qed.

Lemma found_failed G s fl o w S (Q : res unit -> world -> surv -> Prop) : flush_io fl = Some o ->
  safe log_in_order G (rest e p s fl) w S Q -> forall v, on_disk (sfail log_in_order o w S) v -> G v.
Proof using Type.
  intros Ho Hs v Hv.
  assert (X : (forall v, on_disk S v -> G v) /\ forall v, on_disk (sexec log_in_order o w S) v -> G v).
  { destruct fl as [|[r|o1 c]|[r|o1 c]| |[r|o1 c]]; try discriminate Ho; injection Ho as ->;
      unfold rest, ebind in Hs; cbn [bind safe] in Hs; (split; [apply Hs|]); eapply safe_here; apply Hs. }
  destruct o; cbn [sfail] in Hv; [apply X; exact Hv..| |apply X; exact Hv]. apply (proj1 X). exact Hv.
Qed.

Lemma flush_failed_kinv (fp : err -> world -> Prop) recs T A x S m d o f i b op n w' :
  kinv e p fp recs T A (CMach x S) m d o f i b -> flush_io (x_fl x) = Some op -> failed log_in_order op (x_w x) w' -> fp (EIO n) w' ->
  flush_error (flush_failed (x_fl x) (EIO n)) = Some (EIO n) /\
  kinv e p fp recs T A (CMach (set_fl (set_w x w') (flush_failed (x_fl x) (EIO n))) (sfail log_in_order op (x_w x) S)) m d o f i b.
Proof using Hp.
  intros [Hi Hs] Ho Hf Hfp. cbn [cm_x cm_disk] in *.
  destruct (flush_failed_xinv fp _ _ _ _ _ _ _ _ _ n _ Hi Ho Hf Hfp) as [X1 X2].
  split; [exact X1|]. constructor; cbn [cm_x cm_disk]; [exact X2|]. cbn [set_fl set_w x_fl x_w x_s].
  assert (Hs' : exists m1 rb Tb ga,
    o = Some m1 /\ (forall k, d k = kfind (kvs rb) k) /\ old e p rb Tb i b /\ ahead e p ga m1 i b /\
    safe log_in_order (found rb Tb ga) (rest e p (x_s x) (x_fl x)) (x_w x) S (ends e p ga)).
  { destruct (x_fl x) as [|q|q| |q]; try discriminate Ho;
      destruct Hs as (m1 & rb & Tb & ga & H1 & H2 & H3 & H4 & H5 & H6); exists m1, rb, Tb, ga; auto. }
  clear Hs. destruct Hs' as (m1 & rb & Tb & ga & H1 & H3 & H4 & H5 & H6).
  pose proof (found_failed _ _ _ _ _ _ _ Ho H6) as Hfd.
  assert (Hr : safe log_in_order (found rb Tb ga) (rest e p (x_s x) (flush_failed (x_fl x) (EIO n))) w'
    (sfail log_in_order op (x_w x) S) (ends e p ga)).
  { rewrite (rest_failed _ _ _ X1). cbn [safe ends]. auto. }
  pose proof (flush_error_failed _ _ X1) as Hff.
  destruct (flush_failed (x_fl x) (EIO n)) as [|q|q| |q]; [discriminate Hff|..];
    exists m1, rb, Tb, ga; (split; [exact H1|split; [intros E; rewrite Hff in E; discriminate E|auto]]).
Qed.

(** flush() is called again after one has failed. *)
Lemma again_kinv (fp : err -> world -> Prop) recs T A x S m d o f i b er :
  kinv e p fp recs T A (CMach x S) m d o f i b -> flush_error (x_fl x) = Some er ->
  kinv e p fp recs T A (CMach (set_s x (swap_pools (x_s x))) S) m d o f i b.
Proof using Type.
  intros [Hi Hs] He. cbn [cm_x cm_disk] in *. pose proof (flush_error_failed _ _ He) as Hff.
  pose proof (xi_ph _ _ _ _ _ _ _ _ _ _ _ Hi) as Hph. pose proof (xi_sh _ _ _ _ _ _ _ _ _ _ _ Hi) as Hsh.
  rewrite (phase_error _ _ _ _ _ _ _ _ _ He) in Hph.
  constructor; cbn [cm_x cm_disk].
  - unfold set_s. destruct Hsh as [S1 S2 S3 S4 S5 S6 S7 S8 S9 S10 S11 S12 S13 S14].
    eapply xinv_flush; eauto; unfold swap_pools; cbn [st_kh st_p0 st_p1 st_c1 st_frac st_thresh st_buckets st_modulus st_ec]; auto.
    + constructor; cbn [st_kh st_p0 st_p1 st_c1 st_frac st_thresh st_buckets st_modulus st_ec]; auto.
      rewrite app_assoc in *. eapply Permutation_NoDup; [|exact S14]. apply Permutation_app_tail, Permutation_app_comm.
    + rewrite (phase_error _ _ _ _ _ _ _ _ _ He). exact Hph.
    + apply same_refl.
    + intros t n g _ Hh. split; [exact Hh|apply same_refl].
    + apply (xi_c _ _ _ _ _ _ _ _ _ _ _ Hi).
    + apply (xi_p _ _ _ _ _ _ _ _ _ _ _ Hi).
    + intros ni nb. unfold sz. cbn [st_p0 st_p1]. lia.
    + intros k. unfold xabs. cbn [st_p0 st_p1]. unfold pool_find.
      destruct (pmap_find (pl_map (st_p1 (x_s x))) k) as [y|] eqn:E1; destruct (pmap_find (pl_map (st_p0 (x_s x))) k) as [z|] eqn:E0; auto.
      exfalso. apply pmap_find_In in E1 as [E1 K1], E0 as [E0 K0].
      apply (in_map pe_key) in E1, E0. eapply nodup_disj; [exact S14|exact E1|].
      apply in_app_iff. left. rewrite K1, <- K0. exact E0.
  - cbn [set_s x_fl x_w x_s]. destruct (x_fl x) as [|q|q| |q]; [discriminate Hff|..];
      destruct Hs as (m1 & rb & Tb & ga & H1 & H2 & H3 & H4 & H5 & H6); exists m1, rb, Tb, ga;
      (split; [exact H1|split; [intros E; rewrite Hff in E; discriminate E|]]);
      (split; [exact H3|split; [exact H4|split; [exact H5|]]]);
      rewrite (rest_failed _ _ _ He); rewrite (rest_failed _ _ _ He) in H6; exact H6.
Qed.

(** ** All transitions *)
(** The errors a flush may fail with; [lp] says whether the data file may become too big. *)
Variable lp : Prop.
Definition mayfail (er : err) (w : world) : Prop := (exists n, er = EIO n) \/ er = EAssert /\ lp /\ near_limit w.
Definition bad (ec : option err) : bool := match ec with Some _ => true | None => false end.

Record finv (recs : list drec) (T : list bent) (A : list N) (c : fmach) (m d : smap) (o : option smap)
    (f : N -> lst) (i b : N) : Prop := FInv {
  fi_k : kinv e p mayfail recs T A (CMach (fm_x c) (fm_disk c)) m d o f i b;
  fi_st : all_strict (x_th (fm_x c));
  fi_ec : forall er, fm_ec c = Some er -> flush_error (x_fl (fm_x c)) = Some er /\ er <> EAssert;
  fi_live : on_disk (fm_disk c) (x_w (fm_x c)) }.

Lemma finv_eio recs T A c m d o f i b er : finv recs T A c m d o f i b -> flush_error (x_fl (fm_x c)) = Some er ->
  mayfail er (x_w (fm_x c)).
Proof using Type.
  intros [[Hi _] _ _ _] He. pose proof (xi_ph _ _ _ _ _ _ _ _ _ _ _ Hi) as Hph. cbn [cm_x] in Hph.
  rewrite (phase_error _ _ _ _ _ _ _ _ _ He) in Hph. exact Hph.
Qed.

Lemma fmstep_inv c h c' recs T A m d o f i b :
  fmstep e c h c' -> young p -> finv recs T A c m d o f i b ->
  (too_long (i + inserts (fcalls h)) (b + insert_bytes (fcalls h)) -> lp) ->
  exists recs' T' A' m' d' o' f', fruns (FSt m d o (bad (fm_ec c)) f) h (FSt m' d' o' (bad (fm_ec c')) f') /\
    finv recs' T' A' c' m' d' o' f' (i + inserts (fcalls h)) (b + insert_bytes (fcalls h)).
Proof using Hp Hit.
  intros Hs Hfit Hi Hl.
  assert (Heio : forall er, fm_ec c = Some er -> exists n, er = EIO n).
  { intros er E. destruct (fi_ec _ _ _ _ _ _ _ _ _ _ Hi _ E) as [E1 E2].
    destruct (finv_eio _ _ _ _ _ _ _ _ _ _ er Hi E1) as [X|[X _]]; [exact X|contradiction]. }
  destruct Hi as [Hk Hst Hec Hlive].
  inversion Hs as [x S ec ck t c0 s Ht Hv Hc E1 E2|x S ck t Ht Hck E1 E2|x S er ck t Ht Hck E1 E2|x S ec ck t h2 x3 Hck Ht E1 E2|
    x S ec ck t op n h2 x3 Hio Ht E1 E2|x S ec ck x3 Hf E1 E2|x S ec ck op n w' Hio Hf E1 E2|x S ck er Hfe Hna E1 E2|
    x S er ck Hm Hp1 E1 E2|x S ec ck w1 w2 w3 s3 Hd Hint Ho E1 E2]; subst;
    cbn [fm_x fm_disk fm_ec] in *.
  - destruct (call_kinv e p _ _ _ _ _ _ _ _ _ _ _ _ _ _ _ Hk Ht Hv Hc) as (A' & H2 & H3).
    exists recs, T, A', m, d, o. eexists. split; [exact (atomic_fruns _ _ _ _ _ d o (bad ec) H2)|].
    cbn [fcalls inserts insert_bytes]. rewrite !N.add_0_r.
    constructor; cbn [fm_x fm_disk fm_ec]; auto.
    apply all_strict_set; auto. destruct c0; try discriminate; injection Hc as <-; exact I.
  - exists recs, T, A, m, d, o, f. split; [apply fr_nil|].
    cbn [fcalls inserts insert_bytes]. rewrite !N.add_0_r.
    constructor; cbn [fm_x fm_disk fm_ec]; auto.
  - destruct (Heio _ eq_refl) as (n & ->).
    destruct (refused_xinv e p _ _ _ _ _ _ _ _ _ _ n (ki_x _ _ _ _ _ _ _ _ _ _ _ _ _ Hk) Ht) as ((c0 & Hc0) & Hx). cbn [cm_x] in Hx.
    exists recs, T, A, m, d, o. eexists. split; [apply fruns_one, (ff_refused m d o f t c0 Hc0)|].
    cbn [fcalls inserts insert_bytes]. rewrite !N.add_0_r.
    constructor; cbn [fm_x fm_disk fm_ec]; auto.
    + constructor; cbn [cm_x cm_disk]; [exact Hx|exact (ki_s _ _ _ _ _ _ _ _ _ _ _ _ _ Hk)].
    + apply all_strict_set; [exact Hst|exact I].
  - destruct (thread_kinv e p _ Hp _ _ _ _ _ _ _ _ _ _ _ _ _ _ Hk Ht) as (m2 & f2 & H2 & H3).
    assert (Hc0 : calls h2 = []).
    { destruct (thread_step_calls _ _ _ _ _ Ht) as [->|(o0 & ->)]; auto. }
    assert (Hpure : forall o, thread_io (x_th x t) = Some o -> io_pure o).
    { intros o0. eapply thread_pure. exact (ki_x _ _ _ _ _ _ _ _ _ _ _ _ _ Hk). }
    destruct (thread_keeps e _ _ _ _ Ht) as (K1 & K2 & _).
    { intros o0 Ho0. apply pure_exec; auto. }
    assert (HS : io_disk (thread_io (x_th x t)) (x_w x) S = S).
    { unfold io_disk. destruct (thread_io (x_th x t)) as [o0|]; auto. apply pure_sexec; auto. }
    exists recs, T, A, m2, d, o, f2. split; [apply atomic_fruns; exact H2|].
    rewrite fcalls_hev, Hc0. cbn [inserts insert_bytes]. rewrite !N.add_0_r.
    constructor; cbn [fm_x fm_disk fm_ec].
    + exact H3.
    + eapply thread_strict; eauto.
    + intros er E. rewrite K2. auto.
    + rewrite HS, K1. auto.
  - destruct (failed_xinv e p _ _ _ _ _ _ _ _ _ _ _ _ _ _ (ki_x _ _ _ _ _ _ _ _ _ _ _ _ _ Hk) Hst Hio Ht) as (-> & Hmf & Hx & K1 & K2 & K3).
    exists recs, T, A, m, d, o. eexists. split; [apply fruns_one, ff_op_fails; exact Hmf|].
    cbn [map fcalls inserts insert_bytes]. rewrite !N.add_0_r.
    assert (Hst' : all_strict (x_th x3)).
    { eapply thread_strict; [|exact Ht]. cbn [goto x_th]. apply all_strict_set; auto.
      pose proof (Hst t) as X. clear - X. destruct (x_th x t) as [| |? ? [|]|? ? [|]| | |? ? ? ? [|]|? ? [|]|? ? ? ? [|]| |];
        cbn [tstrict thread_failed] in *; auto; eapply strict_do_inv; eauto. }
    constructor; cbn [fm_x fm_disk fm_ec]; auto.
    + constructor; cbn [cm_x cm_disk].
      * exact Hx.
      * rewrite K1, K2, K3. exact (ki_s _ _ _ _ _ _ _ _ _ _ _ _ _ Hk).
    + intros er E. rewrite K3. auto.
    + rewrite K2. auto.
  - assert (Hc0 : dcalls (flush_seen x x3) = []).
    { unfold flush_seen. destruct (x_fl x), (x_fl x3); reflexivity. }
    rewrite fcalls_map, Hc0 in *. cbn [inserts insert_bytes] in *. rewrite !N.add_0_r in *.
    destruct (flush_kinv e p _ Hp Hit _ _ _ _ _ _ _ _ _ _ _ _ Hk (fun X w Hw => or_intror (conj eq_refl (conj (Hl X) Hw))) Hfit Hf) as (r2 & T2 & d2 & o2 & H3 & H2).
    pose proof (flush_step_ok _ _ _ Hf) as Hok.
    assert (Hn : ec = None).
    { destruct ec as [er|]; auto. pose proof (flush_error_failed _ _ (proj1 (Hec _ eq_refl))). congruence. }
    subst ec. exists r2, T2, A, m, d2, o2, f. split; [exact (datomic_fruns _ _ _ _ _ _ _ _ _ H2)|].
    constructor; cbn [fm_x fm_disk fm_ec].
    + exact H3.
    + rewrite (proj1 (flush_step_hold _ _ _ Hf)). exact Hst.
    + discriminate.
    + clear - Hf Hlive. unfold flush_step in Hf. cbv zeta in Hf.
      destruct (x_fl x) as [|[[a|er0]|o c]|[[a|er0]|o c]| |[[a|er0]|o c]]; cbn [flush_io next_op io_disk]; try discriminate;
        try (destruct (x_m x =? 0); [|discriminate]); try (destruct (pool_is_empty (st_p1 (x_s x)))); try (destruct (g_finished (x_g x)); [|discriminate]);
        try (pose proof (live_on_disk log_in_order o _ _ Hlive) as L; destruct (exec o (x_w x)) as [w r]); injection Hf as <-; cbn; auto.
  - exists recs, T, A, m, d, o, f. split; [apply fr_nil|].
    cbn [fcalls inserts insert_bytes]. rewrite !N.add_0_r.
    assert (Hok : fl_failed (x_fl x) = false).
    { destruct (x_fl x) as [|[[a|er0]|o1 c]|[[a|er0]|o1 c]| |[[a|er0]|o1 c]]; try discriminate Hio; reflexivity. }
    assert (Hn : ec = None).
    { destruct ec as [er|]; auto. pose proof (flush_error_failed _ _ (proj1 (Hec _ eq_refl))). congruence. }
    subst ec.
    assert (Hbr : mayfail (EIO n) w') by (left; eauto).
    constructor; cbn [fm_x fm_disk fm_ec].
    + exact (proj2 (flush_failed_kinv _ _ _ _ _ _ _ _ _ _ _ _ _ n _ Hk Hio Hf Hbr)).
    + exact Hst.
    + discriminate.
    + cbn [set_fl set_w x_w]. apply live_failed; auto.
  - pose proof (ki_s _ _ _ _ _ _ _ _ _ _ _ _ _ Hk) as X. cbn [cm_x cm_disk] in X.
    assert (Y : exists m1, o = Some m1).
    { pose proof (flush_error_failed _ _ Hfe). destruct (x_fl x); [discriminate|..]; destruct X as (m1 & _ & _ & _ & -> & _); eauto. }
    destruct Y as (m1 & ->).
    exists recs, T, A, m, d, (Some m1), f. split; [apply fruns_one, ff_flush_fails|].
    cbn [fcalls inserts insert_bytes]. rewrite !N.add_0_r.
    constructor; cbn [fm_x fm_disk fm_ec]; auto. intros er0 E. injection E as <-. auto.
  - exists recs, T, A, m, d, o, f. split; [apply fr_nil|].
    cbn [fcalls inserts insert_bytes]. rewrite !N.add_0_r.
    constructor; cbn [fm_x fm_disk fm_ec]; auto.
    eapply again_kinv; [exact Hk|exact (proj1 (Hec _ eq_refl))].
  - destruct (stop_found e p _ Hp Hit _ _ _ _ _ _ _ _ _ _ _ _ Hk Hd Hint) as (r2 & T2 & d2 & R & Hz & Hkf & Hor).
    cbn [fcalls inserts insert_bytes]. rewrite !N.add_0_r.
    exists r2, T2, [], d2, d2, None, (fun _ => LIdle). split.
    { apply fruns_one. destruct Hor as [->| ->]; [apply ff_lost|apply ff_kept]. }
    constructor; cbn [fm_x fm_disk fm_ec].
    + eapply reopened_kinv; eauto.
    + intros t. exact I.
    + discriminate.
    + cbn [xinit x_w]. exact (live_run _ _ _ _ _ _ Ho (durable_live w2)).
Qed.

Lemma fmexec_inv c h c' : fmexec e c h c' -> forall recs T A m d o f i b,
  young p -> finv recs T A c m d o f i b ->
  (too_long (i + inserts (fcalls h)) (b + insert_bytes (fcalls h)) -> lp) ->
  exists recs' T' A' m' d' o' f', fruns (FSt m d o (bad (fm_ec c)) f) h (FSt m' d' o' (bad (fm_ec c')) f') /\
    finv recs' T' A' c' m' d' o' f' (i + inserts (fcalls h)) (b + insert_bytes (fcalls h)).
Proof using Hp Hit.
  induction 1 as [c|c h c1 h' c2 Hx IH Hs]; intros recs T A m d o f i b Hy Hi Hl.
  - cbn [fcalls inserts insert_bytes] in *. rewrite !N.add_0_r in *. exists recs, T, A, m, d, o, f. split; [apply fr_nil|auto].
  - rewrite fcalls_app, inserts_app, insert_bytes_app in *.
    destruct (IH recs T A m d o f i b Hy Hi) as (recs1 & T1 & A1 & m1 & d1 & o1 & f1 & H1 & Hi1).
    { intros X. apply Hl. eapply too_long_mono; [exact X| |]; lia. }
    rewrite !N.add_assoc in *.
    destruct (fmstep_inv _ _ _ _ _ _ _ _ _ _ _ _ Hs Hy Hi1 Hl) as (recs2 & T2 & A2 & m2 & d2 & o2 & f2 & H2 & Hi2).
    exists recs2, T2, A2, m2, d2, o2, f2. split; [eapply fruns_app; eauto|exact Hi2].
Qed.
End Conc.

Lemma fail_inv e a h c : good_args a -> iter_ok e -> failing_use e a h c ->
  exists recs T A m d o f, fruns fstart h (FSt m d o (bad (fm_ec c)) f) /\
    finv e (dbp_of a) (~ small_history (fcalls h)) recs T A c m d o f (inserts (fcalls h)) (insert_bytes (fcalls h)).
Proof.
  intros Ha Hit (M & Hst & Hx). destruct (good_args_ok a Ha) as (Hp & _).
  destruct (started_ok _ _ _ Ha Hit Hst) as [(Hi & HS & _) He].
  refine (fmexec_inv e (dbp_of a) Hp Hit _ _ _ _ Hx [] [([], 0)] [] sempty sempty None (fun _ => LIdle) 0 0 (young_of a) _ (fun X Hs => proj1 (small_long _) Hs X)).
  constructor; cbn [fm_x fm_disk fm_ec].
  - constructor; cbn [cm_x cm_disk xinit x_fl x_w]; [|splits; auto].
    eapply xinit_inv; [exact Hi| |].
    + unfold szinv. rewrite He. split; reflexivity || (vm_compute; discriminate).
    + intros k. unfold abs, pool_find. rewrite He. reflexivity.
  - intros t. exact I.
  - discriminate.
  - cbn [xinit x_w]. destruct Hst as (w1 & w2 & s & R1 & R2 & ->). cbn [m_files m_disk].
    exact (live_run _ _ _ _ _ _ R2 (live_run _ _ _ _ _ _ R1 (durable_live _))).
Qed.
