(** The transitions of the threads. *)
From Verif Require Import Model.Bytes Model.Err Model.Field Model.Format Model.IO Model.BulkIO
  Model.Bucket Model.Pool Model.Recover Model.Create Model.Store Spec SpecLin Model.History Model.Crash
  Model.Concurrent
  Proofs.BytesFacts Proofs.IOFacts Proofs.PoolFacts Proofs.BucketFacts Proofs.BulkFacts Proofs.HashFacts
  Proofs.Table Proofs.Lookup Proofs.CommitFacts Proofs.CommitInv Proofs.CommitRun Proofs.StoreInv
  Proofs.SplitFacts Proofs.OpenFacts Proofs.HistoryFacts Proofs.SafeFacts Proofs.CommitOps Proofs.CrashFacts Proofs.ConcFacts Proofs.ConcLook
  Proofs.ConcInv.
Opaque loop.

Section Conc.
Variables (e : env) (p : dbp) (fp : err -> world -> Prop).
Hypothesis Hp : dbp_ok p.
Notation bs := (db_block_size p).
Notation ks := (db_key_size p).
Notation xinv := (xinv e p fp).

Definition sim (recs : list drec) (T : list bent) (A : list N) (x' : xst) (m : smap) (f : N -> lst)
    (h : list hev) (i b : N) : Prop :=
  exists m' f', atomic m f h m' f' /\ xinv recs T A x' m' f' i b.

(** A transition that is not seen: the call takes no effect ... *)
Lemma sim_none recs T A x' m f i b : xinv recs T A x' m f i b -> sim recs T A x' m f [] i b.
Proof using Type. exists m, f. split; auto. constructor. Qed.
(** ... or it takes effect without changing the contents. *)
Lemma sim_effect recs T A x' m f i b t c o :
  f t = LPending c -> spec_step m c = (m, o) -> xinv recs T A x' m (lset f t (LDone o)) i b ->
  sim recs T A x' m f [] i b.
Proof using Type.
  intros Hf Hs Hi. exists m, (lset f t (LDone o)). split; auto.
  eapply at_effect; [exact Hf|]. rewrite Hs. simpl. constructor.
Qed.

Ltac weights Hi t :=
  pose proof (wt_le e p fp wm _ _ _ _ _ _ _ _ t Hi eq_refl) as Wm;
  pose proof (wt_le e p fp wu _ _ _ _ _ _ _ _ t Hi eq_refl) as Wu;
  match type of Hi with ConcInv.xinv _ _ _ _ _ _ ?x _ _ _ _ =>
    pose proof (wt_le e p fp (wc (g_gen (x_g x))) _ _ _ _ _ _ _ _ t Hi eq_refl) as Wc;
    pose proof (wt_le e p fp (wp (g_gen (x_g x))) _ _ _ _ _ _ _ _ t Hi eq_refl) as Wp
  end;
  rewrite <- ?(xi_m _ _ _ _ _ _ _ _ _ _ _ Hi), <- ?(xi_u _ _ _ _ _ _ _ _ _ _ _ Hi),
    <- ?(xi_c _ _ _ _ _ _ _ _ _ _ _ Hi), <- ?(xi_p _ _ _ _ _ _ _ _ _ _ _ Hi) in *.

Lemma u_true recs T A x m f i b t : xinv recs T A x m f i b -> wu (x_th x t) = 1 -> x_u x = true.
Proof using Type.
  intros Hi Hw. pose proof (wt_le e p fp wu _ _ _ _ _ _ _ _ t Hi eq_refl) as X.
  rewrite <- (xi_u _ _ _ _ _ _ _ _ _ _ _ Hi), Hw in X. destruct (x_u x); auto; unfold b2n in X; lia.
Qed.

(** Leaving a generation. *)
Lemma unlock_ok recs T A x m f i b t n g : xinv recs T A x m f i b -> hold (x_th x t) = Some (n, g) ->
  let gen := g_gen (x_g x) in
  g_gen (g_unlock (x_g x) g) = gen /\
  g_cur (g_unlock (x_g x) g) + wc gen (x_th x t) = g_cur (x_g x) /\
  g_prev (g_unlock (x_g x) g) + wp gen (x_th x t) = g_prev (x_g x).
Proof using Type.
  intros Hi Hh gen. weights Hi t. unfold g_unlock, wc, wp in *. rewrite Hh in *. fold gen in Wc, Wp |- *.
  destruct (g =? gen); cbn [g_gen g_cur g_prev]; splits; auto; lia.
Qed.

Lemma fetch_sim recs T A x m f i b t k :
  xinv recs T A x m f i b -> x_th x t = CFetch k -> sim recs T A (fetch_section e x t k) m f [] i b.
Proof using Hp.
  intros Hi Hx. pose proof (xi_th _ _ _ _ _ _ _ _ _ _ _ Hi t) as Ht. rewrite Hx in Ht. destruct Ht as [Hf Hk].
  assert (Hact : x_th x t <> CIdle) by (rewrite Hx; discriminate).
  pose proof (xi_abs _ _ _ _ _ _ _ _ _ _ _ Hi k) as Ha.
  pose proof (xi_sh _ _ _ _ _ _ _ _ _ _ _ Hi) as Hs.
  destruct (sh_kh _ _ _ _ _ _ Hs) as (B & HB).
  unfold fetch_section. cbv zeta. unfold xabs in Ha.
  destruct (pool_find (st_p1 (x_s x)) k) as [y|].
  { eapply (sim_effect _ _ _ _ _ _ _ _ t _ (OFound (pe_data y)) Hf); [cbn [spec_step]; rewrite Ha; auto|].
    unfold goto. eapply xinv_goto; eauto; rewrite ?Hx; cbn; try lia; auto using lset_same, lset_other. }
  destruct (pool_find (st_p0 (x_s x)) k) as [y|].
  { eapply (sim_effect _ _ _ _ _ _ _ _ t _ (OFound (pe_data y)) Hf); [cbn [spec_step]; rewrite Ha; auto|].
    unfold goto. eapply xinv_goto; eauto; rewrite ?Hx; cbn; try lia; auto using lset_same, lset_other. }
  set (r := fetch_res (kfind (kvs recs) k)).
  assert (Hspec : spec_step m (OpFetch k) = (m, fetch_out r)).
  { cbn [spec_step]. rewrite Ha. unfold r. destruct (kfind (kvs recs) k); reflexivity. }
  rewrite (sh_buckets _ _ _ _ _ _ Hs), (sh_modulus _ _ _ _ _ _ Hs), HB.
  cbn [db_kh kh_salt kh_block_size].
  set (n := bucket_index (hash (e_hasher e) (db_salt p) k) (blen T) (ceil_pow2 (blen T))).
  pose proof (bucket_lt e p Hp recs T k (sh_disk _ _ _ _ _ _ Hs)) as Hn. fold n in Hn.
  destruct (cache_find (st_c1 (x_s x)) n) as [bl|] eqn:Ec.
  - eapply (sim_effect _ _ _ _ _ _ _ _ t _ _ Hf Hspec).
    unfold goto, set_m. cbn [x_w x_s x_m x_u x_g x_th x_fl].
    eapply xinv_goto with (l := LDone (fetch_out r)); eauto; rewrite ?Hx; try (cbn; lia); auto using lset_same, lset_other.
    cbn [tok]. exists r. splits; auto.
    eapply reads_same; [apply (sh_dat _ _ _ _ _ _ Hs)|].
    apply fetch_bucket_reads; auto; [apply Hs|]. apply (sh_c1 _ _ _ _ _ _ Hs n bl Ec).
  - eapply (sim_effect _ _ _ _ _ _ _ _ t _ _ Hf Hspec).
    unfold goto, set_g. cbn [x_w x_s x_m x_u x_g x_th x_fl].
    eapply xinv_goto with (l := LDone (fetch_out r)); eauto; rewrite ?Hx; try (cbn; lia); auto using lset_same, lset_other.
    + cbn [tok]. exists r. splits; auto.
      * eapply reads_same; [apply (sh_key _ _ _ _ _ _ Hs n Hn Ec)|].
        apply fetch_key_reads; auto. apply Hs.
      * unfold holder. splits; auto; [lia|]. destruct (x_fl x); auto.
    + unfold wc. cbn [hold g_lock g_cur]. rewrite N.eqb_refl. lia.
    + unfold wp. cbn [hold g_lock g_prev]. rewrite N.eqb_refl. lia.
Qed.

Lemma insert_sim recs T A x m f i b t k v :
  xinv recs T A x m f i b -> x_th x t = CInsLocked k v -> sim recs T A (insert_section e x t k v) m f [] i b.
Proof using Hp.
  intros Hi Hx. pose proof (xi_th _ _ _ _ _ _ _ _ _ _ _ Hi t) as Ht. rewrite Hx in Ht. destruct Ht as [Hf Hv].
  assert (Hk : blen k = ks) by apply Hv.
  assert (Hact : x_th x t <> CIdle) by (rewrite Hx; discriminate).
  pose proof (xi_abs _ _ _ _ _ _ _ _ _ _ _ Hi k) as Ha.
  pose proof (xi_sh _ _ _ _ _ _ _ _ _ _ _ Hi) as Hs.
  assert (Hu : x_u x = true) by (eapply u_true; eauto; rewrite Hx; reflexivity).
  destruct (sh_kh _ _ _ _ _ _ Hs) as (B & HB).
  unfold insert_section. cbv zeta. unfold xabs in Ha.
  assert (Hfound : forall d, m k = Some d -> sim recs T A (goto (set_u x false) t (CRet OKeyExists)) m f [] i b).
  { intros d Hd. eapply (sim_effect _ _ _ _ _ _ _ _ t _ OKeyExists Hf); [cbn [spec_step]; rewrite Hd; auto|].
    unfold goto, set_u. cbn [x_w x_s x_m x_u x_g x_th x_fl].
    eapply xinv_goto; eauto; rewrite ?Hx, ?Hu; cbn; try lia; auto using lset_same, lset_other. }
  destruct (pool_find (st_p1 (x_s x)) k) as [y|]; [eapply Hfound; eauto|].
  destruct (pool_find (st_p0 (x_s x)) k) as [y|]; [eapply Hfound; eauto|].
  rewrite (sh_buckets _ _ _ _ _ _ Hs), (sh_modulus _ _ _ _ _ _ Hs), HB.
  cbn [db_kh kh_salt kh_block_size kh_key_size].
  set (n := bucket_index (hash (e_hasher e) (db_salt p) k) (blen T) (ceil_pow2 (blen T))).
  pose proof (bucket_lt e p Hp recs T k (sh_disk _ _ _ _ _ _ Hs)) as Hn. fold n in Hn.
  set (found := is_some (kfind (kvs recs) k)).
  assert (Hcase : forall x', (forall f' l, f' t = l -> (forall u, u <> t -> f' u = f u) ->
      outlook m l k v found -> xinv recs T A x' m f' i b) -> sim recs T A x' m f [] i b).
  { intros x' H. unfold found in H. destruct (kfind (kvs recs) k) as [d|] eqn:Ek; cbn [is_some outlook] in H.
    - eapply (sim_effect _ _ _ _ _ _ _ _ t _ OKeyExists Hf); [cbn [spec_step]; rewrite Ha; auto|].
      eapply H; [apply lset_same|intros; apply lset_other; auto|auto].
    - apply sim_none. eapply H; eauto. }
  destruct (cache_find (st_c1 (x_s x)) n) as [bl|] eqn:Ec; apply Hcase; clear Hcase; intros f' l Hf' Hfo Hol.
  - unfold goto, set_m. cbn [x_w x_s x_m x_u x_g x_th x_fl].
    eapply xinv_goto; eauto; rewrite ?Hx; try (cbn; lia); auto.
    cbn [tok]. splits; auto.
    destruct (exists_parts_reads e p Hp recs T k B (sh_disk _ _ _ _ _ _ Hs) Hk (bk_of_blob bl)) as (r & H1 & H2).
    { apply (sh_c1 _ _ _ _ _ _ Hs n bl Ec). }
    exists found, r. split; [exact Hol|]. split.
    + eapply reads_same; [apply (sh_dat _ _ _ _ _ _ Hs)|exact H1].
    + destruct r; [exact H2|]. rewrite HB. eapply reads_same; [apply (sh_dat _ _ _ _ _ _ Hs)|exact H2].
  - unfold goto, set_g. cbn [x_w x_s x_m x_u x_g x_th x_fl].
    eapply xinv_goto; eauto; rewrite ?Hx; try (cbn; lia); auto.
    + cbn [tok]. splits; auto.
      * unfold holder. splits; auto; [lia|]. destruct (x_fl x); auto.
      * exists found. split; auto.
        eapply reads_same; [apply (sh_key _ _ _ _ _ _ Hs n Hn Ec)|].
        apply exists_key_reads; auto. apply Hs.
    + unfold wc. cbn [hold g_lock g_cur]. rewrite N.eqb_refl. lia.
    + unfold wp. cbn [hold g_lock g_prev]. rewrite N.eqb_refl. lia.
Qed.

(** A read by a thread. *)
Lemma read_step recs T A x m f i b t c w :
  xinv recs T A x m f i b -> x_th x t <> CIdle -> w = x_w x ->
  tok e p (st_kh (x_s x)) (x_w x) (st_c1 (x_s x)) (g_gen (x_g x)) (x_fl x) m (f t) c ->
  wm c = wm (x_th x t) -> wu c = wu (x_th x t) -> hold c = hold (x_th x t) -> pend c = pend (x_th x t) ->
  sim recs T A (goto (set_w x w) t c) m f [] i b.
Proof using Type.
  intros Hi Hact -> Ht Em Eu Eh En. apply sim_none. unfold goto, set_w. cbn [x_w x_s x_m x_u x_g x_th x_fl].
  eapply xinv_goto with (l := f t); eauto; unfold wc, wp, pn, pb; rewrite ?Em, ?Eu, ?Eh, ?En; try lia.
Qed.

Lemma go_sim recs T A x m f i b t k v :
  xinv recs T A x m f i b -> x_th x t = CInsGo k v ->
  sim recs T A (goto (set_u (set_s x (with_p1 (x_s x) (pool_insert (st_p1 (x_s x))
    (hash (e_hasher e) (kh_salt (st_kh (x_s x))) k) k v))) false) t (CRet OInserted)) m f [] i b.
Proof using Hp.
  intros Hi Hx. pose proof (xi_th _ _ _ _ _ _ _ _ _ _ _ Hi t) as Ht. rewrite Hx in Ht. destruct Ht as [Hv [Hf Hm]].
  assert (Hact : x_th x t <> CIdle) by (rewrite Hx; discriminate).
  assert (Hu : x_u x = true) by (eapply u_true; eauto; rewrite Hx; reflexivity).
  assert (Hou : forall u, u <> t -> wu (x_th x u) = 0).
  { intros u Hu2. destruct (N.eq_dec (wu (x_th x u)) 0) as [E|E]; auto. exfalso.
    assert (Hau : x_th x u <> CIdle) by (intros X; rewrite X in E; apply E; reflexivity).
    pose proof (sumw_two wu A (x_th x) u t eq_refl (xi_nd _ _ _ _ _ _ _ _ _ _ _ Hi)
      (active_in _ _ _ _ _ _ _ _ _ _ _ _ Hi Hau) (active_in _ _ _ _ _ _ _ _ _ _ _ _ Hi Hact) Hu2) as X.
    rewrite <- (xi_u _ _ _ _ _ _ _ _ _ _ _ Hi), Hx in X. rewrite Hu in X. cbn [wu b2n] in X. lia. }
  pose proof (active_in _ _ _ _ _ _ _ _ _ _ _ _ Hi Hact) as Hin.
  destruct Hi as [I1 I2 I3 I4 I5 I6 I7 I8 I9 I10 I11].
  destruct (sh_kh _ _ _ _ _ _ I1) as (B & HB). rewrite HB. cbn [db_kh kh_salt].
  set (s := x_s x) in *. set (el := pe_new e p k v).
  assert (Habs := I11 k). rewrite Hm in Habs. unfold xabs in Habs.
  destruct (pool_find (st_p1 s) k) as [y|] eqn:F1; [discriminate|].
  destruct (pool_find (st_p0 s) k) as [y|] eqn:F0; [discriminate|].
  assert (N1 : ~ In (pe_key el) (pkeys (pl_map (st_p1 s)))) by (apply pmap_find_none; exact F1).
  assert (N0 : ~ In (pe_key el) (pkeys (pl_map (st_p0 s)))) by (apply pmap_find_none; exact F0).
  assert (Nk : ~ In (pe_key el) (map fst (kvs recs))) by (apply kfind_none; auto).
  pose proof (pmap_insert_perm _ _ N1) as Hperm.
  exists (sput m k v), (lset f t (LDone OInserted)). split.
  { eapply at_effect; [exact Hf|]. cbn [spec_step]. rewrite Hm. simpl. constructor. }
  unfold goto, set_u, set_s, with_p1. cbn [x_w x_s x_m x_u x_g x_th x_fl].
  pose proof (sumw_upd wm A (x_th x) t (CRet OInserted) I4 Hin) as Um.
  pose proof (sumw_upd wu A (x_th x) t (CRet OInserted) I4 Hin) as Uu.
  pose proof (sumw_upd (wc (g_gen (x_g x))) A (x_th x) t (CRet OInserted) I4 Hin) as Uc.
  pose proof (sumw_upd (wp (g_gen (x_g x))) A (x_th x) t (CRet OInserted) I4 Hin) as Up.
  pose proof (sumw_upd pn A (x_th x) t (CRet OInserted) I4 Hin) as Un.
  pose proof (sumw_upd pb A (x_th x) t (CRet OInserted) I4 Hin) as Ub.
  rewrite Hx in *. unfold wc, wp, pn, pb in Um, Uu, Uc, Up, Un, Ub. cbn [wm wu hold pend] in *.
  constructor; cbn [x_w x_s x_m x_u x_g x_th x_fl st_kh st_p0 st_p1 st_c1 st_frac st_thresh st_buckets st_modulus st_ec]; auto.
  - destruct I1 as [S1 S2 S3 S4 S5 S6 S7 S8 S9 S10 S11 S12 S13 S14].
    constructor; cbn [st_kh st_p0 st_p1 st_c1 st_frac st_thresh st_buckets st_modulus st_ec]; auto.
    + unfold batch in *. cbn [pool_insert pl_map]. rewrite Forall_forall in *. intros z Hz.
      eapply Permutation_in in Hz; [|exact Hperm]. destruct Hz as [<-|Hz]; [|apply S12; auto].
      cbn [pe_new pe_hash pe_key pe_data]. destruct Hv as (V1 & V2 & V3). auto.
    + cbn [pool_insert pl_map]. eapply Permutation_NoDup.
      { apply Permutation_app_tail. symmetry. apply Permutation_map. exact Hperm. }
      cbn [map app]. constructor; auto. rewrite !in_app_iff. tauto.
  - intros u. destruct (N.eq_dec u t) as [->|Hut].
    + rewrite tset_same, lset_same. reflexivity.
    + rewrite tset_other, lset_other by auto. eapply tok_map; [apply Hou; auto|apply I3].
  - intros u Hu2. rewrite tset_other; auto. intros ->. auto.
  - clear - Um I6. lia.
  - rewrite Hu in I7. cbn [b2n] in *. clear - Uu I7. lia.
  - clear - Uc I8. unfold wc in *. lia.
  - clear - Up I9. unfold wp in *. lia.
  - unfold sz in *. cbn [st_p0 st_p1 pool_insert pl_map].
    change (PElem (hash (e_hasher e) (db_salt p) k) k v) with el.
    rewrite (blen_perm _ _ Hperm), (pbytes_perm _ _ Hperm), blen_cons. unfold el. cbn [pbytes pe_new pe_key pe_data].
    fold s in I10. unfold pn, pb in *. clear - Un Ub I10. lia.
  - intros k'. unfold xabs, sput. cbn [st_p0 st_p1]. unfold pool_find at 1, pool_insert. cbn [pl_map].
    change (PElem (hash (e_hasher e) (db_salt p) k) k v) with el.
    rewrite (pmap_find_insert (pl_map (st_p1 s)) el) by exact N1. unfold el. cbn [pe_new pe_key].
    destruct (beq k k'); [reflexivity|]. rewrite I11. reflexivity.
Qed.

Lemma thread_sim recs T A x m f i b t h x' :
  xinv recs T A x m f i b -> thread_step e x t = Some (h, x') -> sim recs T A x' m f h i b.
Proof using Hp.
  intros Hi Hst. pose proof (xi_th _ _ _ _ _ _ _ _ _ _ _ Hi t) as Ht.
  weights Hi t.
  assert (Hact : x_th x t <> CIdle) by (intros X; unfold thread_step in Hst; rewrite X in Hst; discriminate).
  unfold thread_step in Hst. cbv zeta in Hst.
  destruct (x_th x t) as [|k|n bl q|n g q|k v|k v|k v n bl q|k v q|k v n g q|k v|o] eqn:Hx; cbn [tok] in Ht.
  - discriminate.
  - injection Hst as <- <-. apply fetch_sim; auto.
  - destruct Ht as (r & Hl & Hr & Hc). destruct q as [r0|o c].
    + injection Hst as <- <-. apply reads_ret in Hr. subst r0. apply sim_none. unfold goto, set_m.
      cbn [x_w x_s x_m x_u x_g x_th x_fl]. cbn [wm] in Wm.
      eapply xinv_goto with (l := f t); eauto; rewrite ?Hx; try discriminate; try (cbn; lia); exact Hl.
    + apply reads_inv in Hr as (f0 & off & len & rs & -> & _ & Hex & Hr & _). rewrite Hex in Hst.
      injection Hst as <- <-. eapply read_step; eauto; rewrite ?Hx; auto.
      cbn [tok]. exists r. split; [exact Hl|]. split; [exact Hr|exact Hc].
  - destruct Ht as (r & Hl & Hr & Hc). destruct q as [r0|o c].
    + injection Hst as <- <-. apply reads_ret in Hr. subst r0. apply sim_none. unfold goto, set_g.
      cbn [x_w x_s x_m x_u x_g x_th x_fl].
      destruct (unlock_ok recs T A x m f i b t n g Hi) as (U1 & U2 & U3); [rewrite Hx; auto|]. rewrite Hx in U2, U3.
      eapply xinv_goto with (l := f t); eauto; rewrite ?Hx, ?U2, ?U3; try discriminate; try (cbn; lia); exact Hl.
    + apply reads_inv in Hr as (f0 & off & len & rs & -> & _ & Hex & Hr & _). rewrite Hex in Hst.
      injection Hst as <- <-. eapply read_step; eauto; rewrite ?Hx; auto.
      cbn [tok]. exists r. split; [exact Hl|]. split; [exact Hr|exact Hc].
  - destruct (x_u x) eqn:Hu; [discriminate|]. injection Hst as <- <-. apply sim_none. unfold goto, set_u.
    cbn [x_w x_s x_m x_u x_g x_th x_fl].
    eapply xinv_goto with (l := f t); eauto; rewrite ?Hx, ?Hu; try discriminate; try (cbn; lia); exact Ht.
  - injection Hst as <- <-. apply insert_sim; auto.
  - assert (Hu : x_u x = true) by (eapply u_true; eauto; rewrite Hx; reflexivity).
    destruct Ht as (Hv & Hc & found & r & Hol & Hr & Hrest). destruct q as [r0|o c].
    + apply reads_ret in Hr. subst r0. cbn [wm] in Wm. destruct r; injection Hst as <- <-; apply sim_none.
      * subst found. unfold goto, set_u, set_m. cbn [x_w x_s x_m x_u x_g x_th x_fl].
        eapply xinv_goto with (l := f t); eauto; rewrite ?Hx, ?Hu; try discriminate; try (cbn; lia); exact Hol.
      * unfold goto, set_m. cbn [x_w x_s x_m x_u x_g x_th x_fl].
        eapply xinv_goto with (l := f t); eauto; rewrite ?Hx, ?Hu; try discriminate; try (cbn; lia).
        cbn [tok]. split; [exact Hv|]. exists found. split; [exact Hol|].
        destruct (sh_kh _ _ _ _ _ _ (xi_sh _ _ _ _ _ _ _ _ _ _ _ Hi)) as (B & HB). rewrite HB in *. exact Hrest.
    + apply reads_inv in Hr as (f0 & off & len & rs & -> & _ & Hex & Hr & _). rewrite Hex in Hst.
      injection Hst as <- <-. eapply read_step; eauto; rewrite ?Hx; auto.
      cbn [tok]. split; [exact Hv|]. split; [exact Hc|]. exists found, r. split; [exact Hol|]. split; [exact Hr|exact Hrest].
  - assert (Hu : x_u x = true) by (eapply u_true; eauto; rewrite Hx; reflexivity).
    destruct Ht as (Hv & found & Hol & Hr). destruct q as [r0|o c].
    + apply reads_ret in Hr. subst r0. destruct found; injection Hst as <- <-; apply sim_none.
      * unfold goto, set_u. cbn [x_w x_s x_m x_u x_g x_th x_fl].
        eapply xinv_goto with (l := f t); eauto; rewrite ?Hx, ?Hu; try discriminate; try (cbn; lia); exact Hol.
      * unfold goto. cbn [x_w x_s x_m x_u x_g x_th x_fl].
        eapply xinv_goto with (l := f t); eauto; rewrite ?Hx, ?Hu; try discriminate; try (cbn; lia).
        cbn [tok]. split; [exact Hv|exact Hol].
    + apply reads_inv in Hr as (f0 & off & len & rs & -> & _ & Hex & Hr & _). rewrite Hex in Hst.
      injection Hst as <- <-. eapply read_step; eauto; rewrite ?Hx; auto.
      cbn [tok]. split; [exact Hv|]. exists found. split; [exact Hol|exact Hr].
  - assert (Hu : x_u x = true) by (eapply u_true; eauto; rewrite Hx; reflexivity).
    destruct Ht as (Hv & Hh & found & Hol & Hr). destruct q as [r0|o c].
    + apply reads_ret in Hr. subst r0.
      destruct (unlock_ok recs T A x m f i b t n g Hi) as (U1 & U2 & U3); [rewrite Hx; auto|]. rewrite Hx in U2, U3.
      destruct found; injection Hst as <- <-; apply sim_none.
      * unfold goto, set_u, set_g. cbn [x_w x_s x_m x_u x_g x_th x_fl].
        eapply xinv_goto with (l := f t); eauto; rewrite ?Hx, ?Hu, ?U2, ?U3; try discriminate; try (cbn; lia); exact Hol.
      * unfold goto, set_g. cbn [x_w x_s x_m x_u x_g x_th x_fl].
        eapply xinv_goto with (l := f t); eauto; rewrite ?Hx, ?Hu, ?U2, ?U3; try discriminate; try (cbn; lia).
        cbn [tok]. split; [exact Hv|exact Hol].
    + apply reads_inv in Hr as (f0 & off & len & rs & -> & _ & Hex & Hr & _). rewrite Hex in Hst.
      injection Hst as <- <-. eapply read_step; eauto; rewrite ?Hx; auto.
      cbn [tok]. split; [exact Hv|]. split; [exact Hh|]. exists found. split; [exact Hol|exact Hr].
  - destruct (x_m x =? 0); [|discriminate]. injection Hst as <- <-. apply go_sim; auto.
  - injection Hst as <- <-. exists m, (lset f t LIdle). split.
    + eapply at_ret; [exact Ht|]. constructor.
    + unfold goto. eapply xinv_goto with (l := LIdle); eauto; rewrite ?Hx; try discriminate; try (cbn; lia);
        [apply lset_same|intros; apply lset_other; auto|reflexivity].
Qed.
End Conc.
