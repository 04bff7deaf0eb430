(** What follows for executions with several threads. *)
From Verif Require Import Model.Bytes Model.Err Model.Field Model.Format Model.IO Model.BulkIO
  Model.Bucket Model.Pool Model.Recover Model.Create Model.Store Spec SpecLin Model.History Model.Crash
  Model.Concurrent
  Proofs.BytesFacts Proofs.IOFacts Proofs.PoolFacts Proofs.BucketFacts Proofs.BulkFacts Proofs.HashFacts
  Proofs.Table Proofs.Lookup Proofs.CommitFacts Proofs.CommitInv Proofs.CommitRun Proofs.StoreInv
  Proofs.SplitFacts Proofs.OpenFacts Proofs.HistoryFacts Proofs.LifeFacts Proofs.MapFacts Proofs.SafeFacts
  Proofs.CommitOps Proofs.CrashFacts
  Proofs.ConcFacts Proofs.ConcLook Proofs.ConcInv Proofs.ConcStep Proofs.ConcFlush.
Opaque loop.

Lemma too_long_mono i b i' b' : too_long i b -> i <= i' -> b <= b' -> too_long i' b'.
Proof. unfold too_long. intros H H1 H2. assert (i * i <= i' * i') by (apply sq_mono; auto). lia. Qed.

Lemma small_long l : small_history l <-> ~ too_long (inserts l) (insert_bytes l).
Proof. unfold small_history, too_long. lia. Qed.

Lemma thread_step_calls e x t h x' : thread_step e x t = Some (h, x') -> h = [] \/ exists o, h = [HRet t o].
Proof.
  unfold thread_step. destruct (x_th x t) as [|k|n b q|n g q|k v|k v|k v n b q|k v q|k v n g q|k v|o];
    try discriminate;
    try (destruct q as [[[|]|]|o c]); try (destruct q as [r|o c]);
    try (destruct (exec o (x_w x))); try (destruct (x_u x); try discriminate); try (destruct (x_m x =? 0); try discriminate);
    intros E; injection E as <- <-; eauto.
Qed.

Section Conc.
Variables (e : env) (p : dbp) (fp : err -> world -> Prop).
Hypothesis Hp : dbp_ok p.
Hypothesis Hit : iter_ok e.
Notation bs := (db_block_size p).
Notation ks := (db_key_size p).
Notation xinv := (xinv e p fp).
Notation vw := (vw e p).

Lemma sinv_world recs T s w : sinv e p recs T s w -> w = wend e p recs T.
Proof using Type.
  intros [Hd Hl _ _ _ _ _ _ _ _ _ _]. destruct Hd as [D1 D2 _ _ _ _ _]. destruct w as [a b c].
  unfold wget, wend in *. cbn [w_dat w_key w_log] in *. congruence.
Qed.

Lemma xinit_inv recs T s w i b m : sinv e p recs T s w -> szinv recs s i b -> (forall k, m k = abs recs s k) ->
  xinv recs T [] (xinit s w) m (fun _ => LIdle) i b.
Proof using Type.
  intros Hi Hz Hm. pose proof (sinv_world _ _ _ _ Hi) as Hw.
  destruct Hi as [Hd Hl Hkh Hp0 Hc1 Hec Hth Hfr Hbu Hmo Hba Hnd].
  constructor; cbn [xinit x_w x_s x_m x_u x_g x_th x_fl g_gen g_cur g_prev sumw]; auto.
  - constructor; auto.
    + rewrite Hw in Hd. exact (disk_wlog e p recs T _ None Hd).
    + apply same_vw; [apply (dk_dat _ _ _ _ _ Hd)|apply (dk_key _ _ _ _ _ Hd)].
    + intros n _ _. apply same_vw; [apply (dk_dat _ _ _ _ _ Hd)|apply (dk_key _ _ _ _ _ Hd)].
    + rewrite Hc1. intros n q H. discriminate.
    + rewrite Hc1. constructor.
    + rewrite Hp0. constructor.
    + rewrite Hp0. exact Hnd.
  - apply phase_on. cbn [phase0]. splits; auto.
  - intros t. reflexivity.
  - constructor.
  - destruct Hz as [Z1 Z2]. unfold sz. rewrite Hp0. cbn [pool_empty pl_map pbytes]. rewrite blen_nil. lia.
  - intros k. rewrite Hm. unfold abs, xabs. rewrite Hp0. change (pool_find pool_empty k) with (@None pelem). auto.
Qed.

(** An execution, seen from outside, is one with atomic calls. *)
Lemma xexec_inv x h x' : xexec e x h x' -> forall recs T A m f i b,
  xinv recs T A x m f i b ->
  (too_long (i + inserts (calls h)) (b + insert_bytes (calls h)) -> forall w, near_limit w -> fp EAssert w) ->
  exists recs' T' A' m' f', atomic m f h m' f' /\
    xinv recs' T' A' x' m' f' (i + inserts (calls h)) (b + insert_bytes (calls h)).
Proof using Hp Hit.
  induction 1 as [x|x h x1 h' x2 Hx IH Hs]; intros recs T A m f i b Hi Hl.
  - cbn [calls inserts insert_bytes] in *. rewrite !N.add_0_r in *. exists recs, T, A, m, f. split; [constructor|auto].
  - rewrite calls_app, inserts_app, insert_bytes_app in *.
    destruct (IH recs T A m f i b Hi) as (recs1 & T1 & A1 & m1 & f1 & H1 & Hi1).
    { intros X. apply Hl. eapply too_long_mono; [exact X| |]; lia. }
    clear IH. inversion Hs as [t c s Ht Hv Hc E1 E2|t h2 x3 Ht E1 E2|x3 Hf E1 E2]; subst.
    + destruct (call_sim e p fp _ _ _ _ _ _ _ _ _ _ _ Hi1 Ht Hv Hc) as (A' & H2 & H3).
      exists recs1, T1, A', m1. eexists. split; [eapply atomic_app; eauto|].
      cbn [calls inserts insert_bytes]. rewrite !N.add_0_r, !N.add_assoc. exact H3.
    + destruct (thread_sim e p fp Hp _ _ _ _ _ _ _ _ _ _ _ Hi1 Ht) as (m2 & f2 & H2 & H3).
      assert (Hc0 : calls h' = []).
      { destruct (thread_step_calls _ _ _ _ _ Ht) as [->|(o & ->)]; auto. }
      rewrite Hc0. cbn [inserts insert_bytes]. rewrite !N.add_0_r.
      exists recs1, T1, A1, m2, f2. split; auto. eapply atomic_app; eauto.
    + assert (Hl1 : too_long (i + inserts (calls h)) (b + insert_bytes (calls h)) -> forall w, near_limit w -> fp EAssert w).
      { intros X. apply Hl. eapply too_long_mono; [exact X| |]; lia. }
      destruct (flush_sim e p fp Hp Hit _ _ _ _ _ _ _ _ _ Hi1 Hl1 Hf) as (r2 & T2 & H3).
      cbn [calls inserts insert_bytes]. rewrite !N.add_0_r. rewrite app_nil_r.
      exists r2, T2, A1, m1, f1. split; auto.
Qed.

(** ** Nobody waits for ever *)
Definition can_step (x : xst) (t : N) : Prop := exists h x', thread_step e x t = Some (h, x').

Lemma can_step_prog {A} (q : prog A) (x : xst) :
  (exists r, q = Ret r) \/ (exists o c w r, q = Do o c /\ exec o (x_w x) = (w, r)).
Proof using Type. destruct q as [r|o c]; [eauto|]. right. destruct (exec o (x_w x)) as [w r] eqn:E. exists o, c, w, r. auto. Qed.

(** A thread that is within a call can go on unless it is an insert that waits for one of
    the two locks. *)
Lemma step_or_wait x t :
  x_th x t = CIdle \/ can_step x t \/
  (x_u x = true /\ exists k v, x_th x t = CInsert k v) \/ (x_m x <> 0 /\ exists k v, x_th x t = CInsGo k v).
Proof using Type.
  unfold can_step, thread_step.
  destruct (x_th x t) as [|k|n b q|n g q|k v|k v|k v n b q|k v q|k v n g q|k v|o] eqn:E; eauto;
    try (destruct (can_step_prog q x) as [(r & ->)|(o & c & w & r & -> & Hx)]; [|rewrite Hx; eauto]; eauto);
    try (destruct r as [[|]|]; eauto).
  - destruct (x_u x); [right; right; left; eauto|eauto].
  - destruct (N.eqb_spec (x_m x) 0) as [E0|E0]; [right; left; eauto|]. right. right. right. eauto.
Qed.

Lemma m_free recs T A x m f i b : xinv recs T A x m f i b -> x_m x <> 0 -> exists t, can_step x t.
Proof using Type.
  intros Hi Hm. rewrite (xi_m _ _ _ _ _ _ _ _ _ _ _ Hi) in Hm.
  destruct (sumw_pos wm A (x_th x)) as (t & _ & Ht); [lia|]. exists t.
  destruct (step_or_wait x t) as [E|[E|[(_ & k & v & E)|(_ & k & v & E)]]]; auto;
    rewrite E in Ht; cbn [wm] in Ht; lia.
Qed.

(** Whenever a call is in progress, some thread can go on. *)
Lemma threads_progress recs T A x m f i b t : xinv recs T A x m f i b -> x_th x t <> CIdle -> exists u, can_step x u.
Proof using Type.
  intros Hi Ht. destruct (step_or_wait x t) as [E|[E|[(Hu & _)|(Hm & _)]]]; [contradiction|eauto| |eapply m_free; eauto].
  pose proof (xi_u _ _ _ _ _ _ _ _ _ _ _ Hi) as X. rewrite Hu in X. cbn [b2n] in X.
  destruct (sumw_pos wu A (x_th x)) as (u & _ & Hw); [lia|].
  destruct (step_or_wait x u) as [E|[E|[(_ & k & v & E)|(Hm & _)]]]; [|eauto| |eapply m_free; eauto];
    rewrite E in Hw; cbn [wu] in Hw; lia.
Qed.

(** The flush waits for the threads only, unless it has failed. *)
Lemma flush_progress recs T A x m f i b : fl_failed (x_fl x) = false -> xinv recs T A x m f i b ->
  (exists x', flush_step e x = Some x') \/ exists t, can_step x t.
Proof using Hp Hit.
  intros Hfp Hi. pose proof (xi_ph _ _ _ _ _ _ _ _ _ _ _ Hi) as Hph. unfold flush_step.
  assert (M : x_m x <> 0 -> exists t, can_step x t) by (eapply m_free; eauto).
  destruct (x_fl x) as [|q|q| |q] eqn:Hfl.
  - destruct (N.eqb_spec (x_m x) 0); [|auto]. destruct (pool_is_empty (st_p1 (x_s x))); eauto.
  - destruct q as [[st|er]|o c].
    + destruct (N.eqb_spec (x_m x) 0); [|auto]. eauto.
    + discriminate Hfp.
    + destruct (exec o (x_w x)). eauto.
  - destruct q as [[u|er]|o c]; [eauto| |destruct (exec o (x_w x)); eauto].
    discriminate Hfp.
  - destruct (g_finished (x_g x)) eqn:Hg; [eauto|]. right.
    unfold g_finished in Hg. rewrite (xi_p _ _ _ _ _ _ _ _ _ _ _ Hi) in Hg.
    destruct (sumw_pos (wp (g_gen (x_g x))) A (x_th x)) as (t & _ & Ht); [lia|]. exists t.
    destruct (step_or_wait x t) as [E|[E|[(_ & k & v & E)|(_ & k & v & E)]]]; auto;
      rewrite E in Ht; cbn [wp hold] in Ht; lia.
  - destruct q as [[u|er]|o c]; [| |destruct (exec o (x_w x)); eauto].
    + destruct (N.eqb_spec (x_m x) 0); [|auto]. eauto.
    + discriminate Hfp.
Qed.

(** ** Reading and writing files at the same time *)
Lemma tok_io kh w c1 gen fl m l c o : tok e p kh w c1 gen fl m l c -> thread_io c = Some o ->
  exists f off len d, o = IoRead f off len /\ readable w f off len d /\
    (f = FDat \/ exists n g, f = FKey /\ hold c = Some (n, g) /\ holder c1 gen fl n g /\ blk bs n off len).
Proof using Type.
  intros Ht Ho.
  assert (X : forall B (q : prog B) kr r, reads kr w q r -> next_op q = Some o ->
    exists f off len d, o = IoRead f off len /\ readable w f off len d /\ (f = FDat \/ f = FKey /\ kr off len)).
  { intros B q kr r Hr Hn. destruct q as [y|o' q]; [discriminate|]. injection Hn as ->.
    apply reads_inv in Hr as (f & off & len & r' & E & Hal & _ & _ & d & Hd).
    exists f, off, len, d. splits; auto. }
  destruct c; cbn [thread_io tok hold] in *; try discriminate.
  - destruct Ht as (r & _ & Hr & _). destruct (X _ _ _ _ Hr Ho) as (f & off & len & d & H1 & H2 & [H3|[_ []]]).
    exists f, off, len, d. auto.
  - destruct Ht as (r & _ & Hr & Hh). destruct (X _ _ _ _ Hr Ho) as (f & off & len & d & H1 & H2 & [H3|[H3 H4]]);
      exists f, off, len, d; splits; auto. right. do 2 eexists. splits; [exact H3|reflexivity|exact Hh|exact H4].
  - destruct Ht as (_ & _ & fd & r & _ & Hr & _). destruct (X _ _ _ _ Hr Ho) as (f & off & len & d & H1 & H2 & [H3|[_ []]]).
    exists f, off, len, d. auto.
  - destruct Ht as (_ & fd & _ & Hr). destruct (X _ _ _ _ Hr Ho) as (f & off & len & d & H1 & H2 & [H3|[_ []]]).
    exists f, off, len, d. auto.
  - destruct Ht as (_ & Hh & fd & _ & Hr). destruct (X _ _ _ _ Hr Ho) as (f & off & len & d & H1 & H2 & [H3|[H3 H4]]);
      exists f, off, len, d; splits; auto. right. do 2 eexists. splits; [exact H3|reflexivity|exact Hh|exact H4].
Qed.

Lemma pure_nochange o : io_pure o -> changes o = false.
Proof using Type. destruct o; simpl; tauto. Qed.

(** What the flush is about to change. *)
Lemma phase_io recs T s w fl o : shared e p recs T s w -> phase e p fp recs T s w fl -> flush_io fl = Some o -> changes o = true ->
  (exists off d, o = IoWrite FDat true off d /\ exists y, wget w FDat = Some y /\ off = blen y) \/
  lop o \/
  (exists q n d, fl = FlKey q /\ o = IoWrite FKey false ((n + 1) * bs) d /\ blen d = bs /\ cache_find (st_c1 s) n <> None).
Proof using Hp.
  intros Hsh Hph Ho Hch.
  destruct fl as [|q|q| |q]; cbn [flush_io] in *; try discriminate.
  - destruct q as [r|o' c]; [discriminate|]. injection Ho as ->.
    destruct Hph as (_ & Q7 & Q8 & Q6').
    assert (Q6 : exists w' r, run (Do o c) w = (w', r) /\ r <> Er EAppend).
    { destruct Q6' as [(news & st & T' & s0 & w0 & _ & _ & _ & _ & _ & Q6)|(w' & Q6 & _)]; do 2 eexists; (split; [exact Q6|discriminate]). }
    clear Q6'. destruct Q6 as (w' & r & Q6 & Hr).
    apply ao_do_inv in Q7 as [Ho _]. destruct Ho as [Hq|[(f & ->)|[(off & d & ->)|(ap & off & d & ->)]]].
    + rewrite (pure_nochange _ Hq) in Hch. discriminate.
    + discriminate.
    + left. exists off, d. split; auto. destruct (dat_there _ _ _ _ _ _ Hsh) as (y & Hy). exists y. split; auto.
      inversion Q8 as [|? ? Hk _]; subst. cbn [run exec] in Q6. rewrite Hy in Q6.
      destruct (N.eqb_spec off (blen y)); auto. cbn [andb negb] in Q6. rewrite Hk in Q6. cbn [run] in Q6. congruence.
    + right. left. right. right. left. eauto.
  - destruct q as [r|o' c]; [discriminate|]. injection Ho as ->. destruct Hph as (_ & _ & Q7 & _).
    apply ao_do_inv in Q7 as [Ho _]. auto.
  - destruct q as [r|o' c]; [discriminate|]. injection Ho as ->. destruct Hph as (_ & _ & Q7 & _).
    apply ao_do_inv in Q7 as [[Ho|(n' & q & Hin & ->)] _]; [auto|].
    right. right. do 3 eexists. splits; eauto.
    + assert (Hf : cache_find (st_c1 s) n' = Some q) by (apply cache_In_find; auto; apply (sh_nd1 _ _ _ _ _ _ Hsh)).
      destruct (sh_c1 _ _ _ _ _ _ Hsh n' q Hf) as [H1 H2].
      rewrite (padded_rep _ _ _ _ H2). apply blen_enc_block.
      pose proof (disk_bent e p recs T _ (sh_disk _ _ _ _ _ _ Hsh) 0 n' H1) as Hb.
      exact (bent_ok_fits (db_kh e p 0) (p_cap p Hp) _ Hb).
    + intros X. apply cache_find_none in X. apply X. apply (in_map fst) in Hin. exact Hin.
Qed.

Lemma hold_tok kh w c1 gen fl m l c n g : tok e p kh w c1 gen fl m l c -> hold c = Some (n, g) -> holder c1 gen fl n g.
Proof using Type.
  destruct c; cbn [hold tok]; try discriminate; intros Ht E; injection E as -> ->.
  - destruct Ht as (r & _ & _ & H). auto.
  - tauto.
Qed.

Lemma no_write recs T A x m f i b t n g ap off d :
  xinv recs T A x m f i b -> hold (x_th x t) = Some (n, g) ->
  flush_io (x_fl x) = Some (IoWrite FKey ap off d) ->
  off + blen d <= (n + 1) * bs \/ (n + 2) * bs <= off.
Proof using Hp.
  intros Hi Hh Ho.
  destruct (phase_io _ _ _ _ _ _ (xi_sh _ _ _ _ _ _ _ _ _ _ _ Hi) (xi_ph _ _ _ _ _ _ _ _ _ _ _ Hi) Ho eq_refl)
    as [(off' & d' & E & _)|[E|(q & n' & d' & Hfl & E & Hl & Hc)]].
  - discriminate.
  - exfalso. destruct E as [[]|[(f' & E)|[(a1 & a2 & a3 & E)|(a1 & E)]]]; discriminate.
  - injection E as -> -> ->. 
    pose proof (hold_tok _ _ _ _ _ _ _ _ _ _ (xi_th _ _ _ _ _ _ _ _ _ _ _ Hi t) Hh) as (_ & H2 & H3).
    rewrite Hfl in H3. specialize (H2 H3).
    assert (n <> n') by (intros ->; contradiction). rewrite Hl.
    destruct (N.lt_trichotomy n n') as [L|[L|L]]; [right|contradiction|left]; nia.
Qed.

Lemma no_conflict recs T A x m f i b t o o' :
  xinv recs T A x m f i b -> thread_io (x_th x t) = Some o -> flush_io (x_fl x) = Some o' -> ~ conflict o o'.
Proof using Hp.
  intros Hi Ho Ho' [Hch (ff & j & Hj & Hj')].
  pose proof (xi_th _ _ _ _ _ _ _ _ _ _ _ Hi t) as Ht.
  destruct (tok_io _ _ _ _ _ _ _ _ _ Ht Ho) as (f1 & off & len & d & -> & Hr & Hf1).
  cbn [changes orb] in Hch. cbn [touches] in Hj. destruct Hj as [-> Hj].
  destruct (phase_io _ _ _ _ _ _ (xi_sh _ _ _ _ _ _ _ _ _ _ _ Hi) (xi_ph _ _ _ _ _ _ _ _ _ _ _ Hi) Ho' Hch)
    as [(off' & d' & -> & y & Hy & ->)|[E|(q & n' & d' & Hfl & -> & Hl & Hc)]].
  - destruct Hj' as [<- Hj']. destruct Hr as (c & Hc & _ & Hl). rewrite Hy in Hc. injection Hc as <-. lia.
  - assert (Hff : ff = FLog).
    { destruct E as [E|[(f' & ->)|[(a1 & a2 & a3 & ->)|(a1 & ->)]]]; cbn [touches changes] in *; try discriminate.
      - destruct o'; simpl in E, Hch; try contradiction; discriminate.
      - destruct Hj' as [<- _]; auto.
      - auto. }
    destruct Hf1 as [E1|(n & g & E1 & _)]; rewrite E1 in Hff; discriminate.
  - destruct Hj' as [<- Hj']. destruct Hf1 as [E1|(n & g & _ & Hh & _ & H1 & H2)]; [discriminate|].
    destruct (no_write _ _ _ _ _ _ _ _ _ _ _ _ _ _ Hi Hh Ho') as [X|X]; rewrite Hl in *; nia.
Qed.

Lemma threads_no_conflict recs T A x m f i b t u o o' :
  xinv recs T A x m f i b -> thread_io (x_th x t) = Some o -> thread_io (x_th x u) = Some o' -> ~ conflict o o'.
Proof using Type.
  intros Hi Ho Ho' [Hch _].
  destruct (tok_io _ _ _ _ _ _ _ _ _ (xi_th _ _ _ _ _ _ _ _ _ _ _ Hi t) Ho) as (f1 & off & len & d & -> & _).
  destruct (tok_io _ _ _ _ _ _ _ _ _ (xi_th _ _ _ _ _ _ _ _ _ _ _ Hi u) Ho') as (f2 & off2 & len2 & d2 & -> & _).
  discriminate.
Qed.

Lemma uses_cached recs T A x m f i b t n q :
  xinv recs T A x m f i b -> uses (x_th x t) = Some (n, q) -> cache_find (st_c1 (x_s x)) n = Some q.
Proof using Type.
  intros Hi Hu. pose proof (xi_th _ _ _ _ _ _ _ _ _ _ _ Hi t) as Ht.
  destruct (x_th x t); cbn [uses tok] in *; try discriminate; injection Hu as -> ->.
  - destruct Ht as (r & _ & _ & H). auto.
  - tauto.
Qed.

(** ** What the wait is for *)
Lemma waits_exactly recs T A x m f i b :
  xinv recs T A x m f i b -> x_fl x = FlWait ->
  (flush_step e x = None <-> exists t n g, hold (x_th x t) = Some (n, g) /\ g < g_gen (x_g x)).
Proof using Type.
  intros Hi Hfl. unfold flush_step. rewrite Hfl. unfold g_finished.
  rewrite (xi_p _ _ _ _ _ _ _ _ _ _ _ Hi). split.
  - destruct (N.eqb_spec (sumw (wp (g_gen (x_g x))) A (x_th x)) 0) as [E|E]; [discriminate|]. intros _.
    destruct (sumw_pos (wp (g_gen (x_g x))) A (x_th x)) as (t & _ & Ht); [lia|].
    unfold wp in Ht. destruct (hold (x_th x t)) as [[n g]|] eqn:Eh; [|lia].
    exists t, n, g. split; auto. 
    pose proof (hold_tok _ _ _ _ _ _ _ _ _ _ (xi_th _ _ _ _ _ _ _ _ _ _ _ Hi t) Eh) as (H1 & _).
    destruct (N.eqb_spec g (g_gen (x_g x))); lia.
  - intros (t & n & g & Hh & Hg).
    pose proof (wt_le e p fp (wp (g_gen (x_g x))) _ _ _ _ _ _ _ _ t Hi eq_refl) as W.
    unfold wp at 1 in W. rewrite Hh in W. replace (g =? g_gen (x_g x)) with false in W by lia.
    replace (sumw (wp (g_gen (x_g x))) A (x_th x) =? 0) with false by lia. reflexivity.
Qed.

Lemma thread_step_hold x t h x' : thread_step e x t = Some (h, x') ->
  g_gen (x_g x') = g_gen (x_g x) /\ (forall u, u <> t -> x_th x' u = x_th x u) /\
  (hold (x_th x' t) = None \/ hold (x_th x' t) = hold (x_th x t) \/ exists n, hold (x_th x' t) = Some (n, g_gen (x_g x))).
Proof using Type.
  assert (G : forall y c, x_th (goto y t c) = tset (x_th y) t c) by reflexivity.
  assert (U : forall g y, g_gen (g_unlock y g) = g_gen y) by (intros g y; unfold g_unlock; destruct (g =? g_gen y); auto).
  assert (R : forall y c, g_gen (x_g y) = g_gen (x_g x) -> x_th y = x_th x ->
    (hold c = None \/ hold c = hold (x_th x t) \/ exists n, hold c = Some (n, g_gen (x_g x))) ->
    g_gen (x_g (goto y t c)) = g_gen (x_g x) /\ (forall u, u <> t -> x_th (goto y t c) u = x_th x u) /\
    (hold (x_th (goto y t c) t) = None \/ hold (x_th (goto y t c) t) = hold (x_th x t) \/
     exists n, hold (x_th (goto y t c) t) = Some (n, g_gen (x_g x)))).
  { intros y c H1 H2 H3. rewrite G, H2. split; [exact H1|]. split; [intros; apply tset_other; auto|].
    rewrite tset_same. exact H3. }
  unfold thread_step. destruct (x_th x t) as [|k|n b q|n g q|k v|k v|k v n b q|k v q|k v n g q|k v|o] eqn:Ex;
    try discriminate.
  - intros E; injection E as <- <-. unfold fetch_section.
    destruct (pool_find (st_p1 (x_s x)) k); [apply R; auto|]. destruct (pool_find (st_p0 (x_s x)) k); [apply R; auto|].
    destruct (cache_find _ _); apply R; cbn [hold]; eauto.
  - destruct q as [r|o c]; [|destruct (exec o (x_w x))]; intros E; injection E as <- <-; apply R; auto.
  - destruct q as [r|o c]; [|destruct (exec o (x_w x))]; intros E; injection E as <- <-; apply R; auto.
    apply U.
  - destruct (x_u x); [discriminate|]. intros E; injection E as <- <-; apply R; auto.
  - intros E; injection E as <- <-. unfold insert_section.
    destruct (pool_find (st_p1 (x_s x)) k); [apply R; auto|]. destruct (pool_find (st_p0 (x_s x)) k); [apply R; auto|].
    destruct (cache_find _ _); apply R; cbn [hold]; eauto.
  - destruct q as [[[|]|]|o c]; [| | |destruct (exec o (x_w x))]; intros E; injection E as <- <-; apply R; auto.
  - destruct q as [[[|]|]|o c]; [| | |destruct (exec o (x_w x))]; intros E; injection E as <- <-; apply R; auto.
  - destruct q as [[[|]|]|o c]; [| | |destruct (exec o (x_w x))]; intros E; injection E as <- <-; apply R; auto; apply U.
  - destruct (x_m x =? 0); [|discriminate]. intros E; injection E as <- <-; apply R; auto.
  - intros E; injection E as <- <-; apply R; auto.
Qed.

Lemma flush_step_hold x x' : flush_step e x = Some x' -> x_th x' = x_th x /\ g_gen (x_g x) <= g_gen (x_g x').
Proof using Type.
  unfold flush_step. destruct (x_fl x) as [|q|q| |q].
  - destruct (x_m x =? 0); [|discriminate]. destruct (pool_is_empty (st_p1 (x_s x))); intros E; injection E as <-; split; auto; apply N.le_refl.
  - destruct q as [[st|er]|o c]; [|discriminate|destruct (exec o (x_w x))].
    + destruct (x_m x =? 0); [|discriminate]. intros E; injection E as <-. split; auto. cbn. lia.
    + intros E; injection E as <-; split; auto; apply N.le_refl.
  - destruct q as [[st|er]|o c]; [|discriminate|destruct (exec o (x_w x))]; intros E; injection E as <-; split; auto; apply N.le_refl.
  - destruct (g_finished (x_g x)); [|discriminate]. intros E; injection E as <-; split; auto; apply N.le_refl.
  - destruct q as [[st|er]|o c]; [|discriminate|destruct (exec o (x_w x))].
    + destruct (x_m x =? 0); [|discriminate]. intros E; injection E as <-. split; auto; apply N.le_refl.
    + intros E; injection E as <-; split; auto; apply N.le_refl.
Qed.

(** Who holds an early generation has held it all the time. *)
Lemma held_since x1 h x2 : xexec e x1 h x2 ->
  g_gen (x_g x1) <= g_gen (x_g x2) /\
  forall t n g, hold (x_th x2 t) = Some (n, g) -> g < g_gen (x_g x1) -> hold (x_th x1 t) = Some (n, g).
Proof using Type.
  induction 1 as [x|x h x1 h' x2 Hx [IH1 IH2] Hs]; [split; auto; apply N.le_refl|].
  inversion Hs as [t c s Ht Hv Hc E1 E2|t h2 x3 Ht E1 E2|x3 Hf E1 E2]; subst.
  - split; [exact IH1|]. intros u n g. cbn [goto x_th]. destruct (N.eq_dec u t) as [->|Hu].
    + rewrite tset_same. destruct c; cbn [call_state] in Hc; try discriminate; injection Hc as <-; discriminate.
    + rewrite tset_other by auto. apply IH2.
  - destruct (thread_step_hold _ _ _ _ Ht) as (H1 & H2 & H3). rewrite H1. split; [exact IH1|].
    intros u n g. destruct (N.eq_dec u t) as [->|Hu]; [|rewrite H2 by auto; apply IH2].
    destruct H3 as [E|[E|(n' & E)]]; rewrite E; [discriminate|apply IH2|].
    intros X; injection X as <- <-. lia.
  - destruct (flush_step_hold _ _ Hf) as [H1 H2]. rewrite H1. split; [|exact IH2]. lia.
Qed.
End Conc.

(** A flush can fail with an assertion only if the data file may have become too big. *)
Definition overflowed (l : list op) (er : err) (w : world) : Prop := er = EAssert /\ ~ small_history l /\ near_limit w.
Lemma never_overflowed l w : small_history l \/ ~ near_limit w -> forall er, ~ overflowed l er w.
Proof. intros H er (_ & X & Y). tauto. Qed.
Lemma overflowed_long l : too_long (inserts l) (insert_bytes l) -> forall w, near_limit w -> overflowed l EAssert w.
Proof. intros H w Hw. split; [reflexivity|]. rewrite small_long. tauto. Qed.

Lemma conc_inv e a l h x : good_args a -> iter_ok e -> Forall (valid_op (ca_key_size a)) l ->
  concurrent e a l h x ->
  exists recs T A m f, atomic (spec_final sempty l) (fun _ => LIdle) h m f /\
    xinv e (dbp_of a) (overflowed (l ++ calls h)) recs T A x m f (inserts (l ++ calls h)) (insert_bytes (l ++ calls h)).
Proof.
  intros Ha Hit Hv (w & s & Hl & Hx). destruct (good_args_ok a Ha) as (Hp & _).
  destruct (lived_inv e a l w s Ha Hit Hv Hl) as (recs & T & Hi & Hz & Hm & _).
  pose proof (overflowed_long (l ++ calls h)) as Ho. rewrite inserts_app, insert_bytes_app in *.
  eapply (xexec_inv e (dbp_of a) _ Hp Hit _ _ _ Hx); [apply xinit_inv; eauto|exact Ho].
Qed.

(** ** When everything is quiet *)
(** A flush that has failed. *)
Lemma failed_fp e p (fp : err -> world -> Prop) recs T A x m f i b : xinv e p fp recs T A x m f i b -> fl_failed (x_fl x) = true ->
  exists er, fp er (x_w x).
Proof.
  intros Hi Hf. pose proof (xi_ph _ _ _ _ _ _ _ _ _ _ _ Hi) as Hph.
  destruct (x_fl x) as [|[[a|er]|o c]|[[a|er]|o c]| |[[a|er]|o c]]; try discriminate Hf; exists er; exact Hph.
Qed.
Lemma small_no_fail e a l h x : good_args a -> iter_ok e -> Forall (valid_op (ca_key_size a)) l ->
  concurrent e a l h x -> small_history (l ++ calls h) \/ ~ near_limit (x_w x) -> fl_failed (x_fl x) = false.
Proof.
  intros Ha Hit Hv Hc Hs. destruct (conc_inv e a l h x Ha Hit Hv Hc) as (recs & T & A & m & f & _ & Hi).
  destruct (fl_failed (x_fl x)) eqn:E; auto. exfalso.
  destruct (failed_fp _ _ _ _ _ _ _ _ _ _ _ Hi E) as (er & X). exact (never_overflowed _ _ Hs _ X).
Qed.

Lemma quiet_sinv e p fp recs T A x m f i b : xinv e p fp recs T A x m f i b ->
  (forall t, x_th x t = CIdle) -> x_fl x = FlIdle ->
  sinv e p recs T (x_s x) (x_w x) /\ szinv recs (x_s x) i b /\ (forall k, m k = abs recs (x_s x) k) /\ (forall t, f t = LIdle).
Proof.
  intros Hi Hq Hfl. destruct Hi as [I1 I2 I3 I4 I5 I6 I7 I8 I9 I10 I11]. rewrite Hfl in I2.
  destruct I2 as (P0 & C1 & W). splits.
  - rewrite W in *. apply idle_sinv; auto.
  - destruct I10 as [Z1 Z2]. rewrite P0 in Z1, Z2. cbn [pool_empty pl_map pbytes] in Z1, Z2. rewrite blen_nil in Z1.
    split; lia.
  - intros k. rewrite I11. unfold xabs, abs. rewrite P0. change (pool_find pool_empty k) with (@None pelem). auto.
  - intros t. specialize (I3 t). rewrite Hq in I3. exact I3.
Qed.

Lemma quiet_store e a l h x : good_args a -> iter_ok e -> Forall (valid_op (ca_key_size a)) l ->
  concurrent e a l h x -> (forall t, x_th x t = CIdle) -> x_fl x = FlIdle ->
  exists m, linearizes (spec_final sempty l) h m /\
    forall l', Forall (valid_op (ca_key_size a)) l' -> small_history (l ++ calls h ++ l') \/ ~ near_limit (fst (fst (do_ops e (x_s x) l' (x_w x)))) ->
    exists w' s', do_ops e (x_s x) l' (x_w x) = (w', Some s', spec_outs m l').
Proof.
  intros Ha Hit Hv Hc Hq Hfl. destruct (good_args_ok a Ha) as (Hp & _).
  destruct (conc_inv e a l h x Ha Hit Hv Hc) as (recs & T & A & m & f & Hat & Hi).
  destruct (quiet_sinv _ _ _ _ _ _ _ _ _ _ _ Hi Hq Hfl) as (H1 & H2 & H3 & _).
  exists m. split; [exists f; auto|]. intros l' Hv' Hs'.
  destruct (do_ops_ok e (dbp_of a) Hp Hit l' _ _ _ _ _ _ m _ H1 H2 Hv' H3 (fun k => eq_refl))
    as [(y & T' & s' & w' & Hr & _)|[Hb (w' & n & _ & Hnl & Hr)]]; [eauto|].
  exfalso. rewrite Hr in Hs'. cbn [fst] in Hs'. destruct Hs' as [Hs'|Hs']; [|exact (Hs' Hnl)]. rewrite app_assoc in Hs'. apply small_long in Hs'. apply Hs'. rewrite (inserts_app (l ++ calls h)), (insert_bytes_app (l ++ calls h)). exact Hb.
Qed.

(** ** Executions *)
Lemma xexec_app e x h y : xexec e x h y -> forall h' z, xexec e y h' z -> xexec e x (h ++ h') z.
Proof.
  intros H h' z H'. induction H' as [y|y h1 x1 h2 x2 Hx IH Hs]; [rewrite app_nil_r; auto|].
  rewrite app_assoc. eapply xe_step; eauto.
Qed.

Lemma never_called e x h y t : xexec e x h y -> x_th x t = CIdle -> (forall c, ~ In (HCall t c) h) -> x_th y t = CIdle.
Proof.
  induction 1 as [x|x h x1 h' x2 Hx IH Hs]; intros Ht Hn; auto.
  assert (Ht1 : x_th x1 t = CIdle).
  { apply IH; auto. intros c Hc. apply (Hn c). apply in_app_iff. auto. }
  inversion Hs as [u c s Hu Hv Hc E1 E2|u h2 x3 Hu E1 E2|x3 Hf E1 E2]; subst.
  - cbn [goto x_th]. rewrite tset_other; auto. intros ->. apply (Hn c). apply in_app_iff. right. left. auto.
  - destruct (thread_step_hold _ _ _ _ _ Hu) as (_ & H2 & _). rewrite H2; auto. intros ->.
    unfold thread_step in Hu. rewrite Ht1 in Hu. discriminate.
  - destruct (flush_step_hold _ _ _ Hf) as [-> _]. auto.
Qed.
