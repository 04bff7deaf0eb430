(** Failing operations, and what a flush does to the files at every point. *)
From Verif Require Import Model.Bytes Model.Err Model.Field Model.Format Model.IO
  Model.BulkIO Model.Bucket Model.Pool Model.Recover Model.Create Model.Store Spec SpecCrash Model.History
  Model.Crash Model.Events
  Proofs.BytesFacts Proofs.FieldFacts Proofs.IOFacts Proofs.PoolFacts Proofs.BucketFacts
  Proofs.BulkFacts Proofs.HashFacts Proofs.Table Proofs.Lookup Proofs.SplitFacts
  Proofs.CommitFacts Proofs.CommitInv Proofs.CommitRun Proofs.HeaderFacts Proofs.StoreInv
  Proofs.OpenFacts Proofs.HistoryFacts Proofs.LifeFacts Proofs.SafeFacts Proofs.CommitOps Proofs.CrashFacts
  Proofs.RecoverFacts Proofs.EventFacts.

Local Opaque lhead dat0 key0.

(** A program followed by a function of its result. *)
Lemma fsteps_bind_ret ordf {A B} (f : A -> prog B) (p : prog A) w S q w' S' :
  (forall a, exists b, f a = Ret b) -> fsteps ordf (bind p f) w S q w' S' ->
  exists q0, fsteps ordf p w S q0 w' S' /\ q = bind q0 f.
Proof.
  intros Hf H. remember (bind p f) as p0 eqn:E. revert p E.
  induction H as [p0 w S|o k w S p' w' S' Hs IH|o k w S n w1 p' w' S' Hfl Hs IH]; intros p E.
  - subst p0. exists p. split; [constructor|reflexivity].
  - destruct p as [a|o' k']; simpl in E; [destruct (Hf a) as (b & Eb); congruence|]. injection E as -> ->.
    destruct (IH _ eq_refl) as (q0 & H1 & H2). exists q0. split; auto. constructor. auto.
  - destruct p as [a|o' k']; simpl in E; [destruct (Hf a) as (b & Eb); congruence|]. injection E as -> ->.
    destruct (IH _ eq_refl) as (q0 & H1 & H2). exists q0. split; auto. eapply fsteps_fail; eauto.
Qed.

Lemma fsteps_ret ordf {A} (a : A) w S q w' S' : fsteps ordf (Ret a) w S q w' S' -> q = Ret a /\ w' = w /\ S' = S.
Proof. inversion 1; subst; auto. Qed.

Lemma fsteps_live ordf {A} (p : prog A) w S p' w' S' :
  fsteps ordf p w S p' w' S' -> on_disk S w -> on_disk S' w'.
Proof.
  induction 1; intros Hd; auto.
  - apply IHfsteps. apply live_on_disk. auto.
  - apply IHfsteps. apply live_failed; auto.
Qed.

Lemma steps_run ordf {A} (p : prog A) w S p' w' S' : steps ordf p w S p' w' S' -> run p w = run p' w'.
Proof. induction 1; auto. rewrite run_do. auto. Qed.
Lemma steps_allops ordf P {A} (R : A -> Prop) (p : prog A) w S p' w' S' :
  steps ordf p w S p' w' S' -> allops P R p -> allops P R p'.
Proof. induction 1; auto. intros Ha. inversion Ha; subst. auto. Qed.
Lemma steps_strict ordf {A} (p : prog (res A)) w S p' w' S' :
  steps ordf p w S p' w' S' -> strict p -> strict p'.
Proof. induction 1; auto. intros Ha. inversion Ha; subst. auto. Qed.

(** ** The operations of a commit *)
(** The data and log files are written in append mode, only the log file is
    truncated, nothing is created or erased. *)
Definition commit_op (o : io) : Prop :=
  match o with
  | IoWrite f ap _ _ => f = FKey \/ ap = true
  | IoTrunc f _ => f = FLog
  | IoCreate _ | IoErase _ => False
  | _ => True
  end.

Lemma app_commit_op f o : app_to f o -> commit_op o.
Proof.
  intros [H|(off & d & ->)]; [destruct o; simpl in *; tauto|]. right. reflexivity.
Qed.

Lemma ops_commit e s : allops commit_op anyres (commit e s).
Proof.
  apply (ao_weaken commit_op commit_op (okres anyres)); [|auto|intros; exact I].
  assert (L : forall (A : Type) (q : prog (res A)), allops commit_op anyres q -> allops commit_op (okres anyres) q).
  { intros A q Hq. eapply ao_weaken; [exact Hq|auto|]. intros [a|er] _; exact I. }
  unfold commit. cbv zeta.
  apply (ao_ebind _ anyres).
  { unfold commit_begin. apply (ao_ebind _ anyres); [apply ao_num; exact I|]. intros kfs _.
    apply (ao_ebind _ anyres); [apply ao_num; exact I|]. intros dfs _.
    apply (ao_ebind _ anyres); [apply ao_unit; right; reflexivity|]. intros _ _. apply ao_unit; exact I. }
  intros _ _. apply (ao_ebind _ anyres).
  { apply L. eapply ao_weaken; [apply ops_commit_data|intros o; apply app_commit_op|auto]. }
  intros st _. apply (ao_ebind _ anyres).
  { unfold commit_log. apply (ao_ebind _ anyres); [apply ao_num; exact I|]. intros size _.
    apply (ao_ebind _ (writer_to FLog)).
    - eapply ao_weaken; [apply (ops_commit_log_records FLog)|intros o; apply app_commit_op|auto].
      split; reflexivity.
    - intros w Hw. apply (ao_ebind _ anyres); [|intros; apply ao_unit; exact I].
      eapply ao_weaken; [apply (ops_bw_flush FLog); exact Hw|intros o; apply app_commit_op|].
      intros [a|er] _; exact I. }
  intros _ _. apply (ao_ebind _ anyres).
  { apply L. eapply ao_weaken; [apply (ops_commit_key _ _ _ (incl_refl _))| |auto].
    intros o (n & q & _ & ->). left. reflexivity. }
  intros _ _. apply (ao_ebind _ anyres); [|intros; apply ao_pret; exact I].
  unfold commit_end.
  apply (ao_ebind _ anyres); [apply ao_unit; exact I|]. intros _ _.
  apply (ao_ebind _ anyres); [apply ao_unit; exact I|]. intros _ _.
  apply (ao_ebind _ anyres); [apply ao_unit; reflexivity|]. intros _ _. apply ao_unit; exact I.
Qed.

(** ** Appending only *)
Definition extends (c : bytes) (w : world) : Prop := exists x, wget w FDat = Some (c ++ x).

Lemma ext_set c w f v : f <> FDat -> extends c w -> extends c (wset w f v).
Proof. intros Hf (x & Hx). exists x. rewrite wget_wset_other; auto. Qed.

Lemma ext_exec c o w : commit_op o -> extends c w -> extends c (fst (exec o w)).
Proof.
  intros Ho Hw. pose proof Hw as (x & Hx). destruct o as [f|f|f|f|f off len|f ap off d|f|f n]; simpl in *; try contradiction Ho.
  - destruct (wget w f); auto.
  - destruct (wget w f); auto.
  - destruct (wget w f); auto. destruct (_ || _); auto.
  - destruct (wget w f) as [y|] eqn:E; auto. destruct (ap && negb (off =? blen y)) eqn:A; auto.
    cbn [fst]. destruct f; [|apply ext_set; [discriminate|auto]..].
    destruct Ho as [Ho| ->]; [discriminate Ho|]. simpl in A. apply Bool.negb_false_iff, N.eqb_eq in A. subst off.
    rewrite Hx in E. injection E as <-. exists (x ++ d). rewrite wget_wset_same, bwrite_end, app_assoc by reflexivity. reflexivity.
  - destruct (wget w f); auto.
  - subst f. destruct (wget w FLog); auto.
Qed.

Lemma ext_failed c o w w' : commit_op o -> failed ord o w w' -> extends c w -> extends c w'.
Proof.
  intros Ho Hf Hw. pose proof Hw as (x & Hx). destruct o as [f|f|f|f|f off len|f ap off d|f|f n]; simpl in *;
    try contradiction Ho; try (subst w'; auto; fail).
  - destruct (wget w f) as [y|] eqn:E; [|subst; auto].
    destruct (ap && negb (off =? blen y)) eqn:A; [subst; auto|].
    destruct Hf as (x' & -> & Hx'). destruct f; [|apply ext_set; [discriminate|auto]..].
    destruct Ho as [Ho| ->]; [discriminate Ho|]. simpl in A. apply Bool.negb_false_iff, N.eqb_eq in A. subst off.
    rewrite Hx in E. injection E as <-. cbn [log_in_order] in Hx'. destruct Hx' as [T1 T2].
    assert (X : pref (c ++ x) x').
    { apply pref_nth; [lia|]. intros i Hi. rewrite T2; auto. }
    destruct X as (t & ->). exists (x ++ t). rewrite wget_wset_same, app_assoc. reflexivity.
  - subst f. destruct (wget w FLog); [|subst; auto]. destruct Hf as (x' & -> & _). apply ext_set; [discriminate|auto].
Qed.

Lemma ext_fsteps c {A} (R : A -> Prop) (p : prog A) w S p' w' S' :
  fsteps ord p w S p' w' S' -> allops commit_op R p -> extends c w -> extends c w'.
Proof.
  induction 1 as [p w S|o k w S p' w' S' Hs IH|o k w S n w1 p' w' S' Hf Hs IH]; intros Ha Hw; auto;
    inversion Ha as [|o' k' Ho Hk]; subst.
  - apply IH; auto. apply ext_exec; auto.
  - apply IH; auto. eapply ext_failed; eauto.
Qed.

Lemma ops_flush e s : allops commit_op anyres (store_flush e s).
Proof.
  unfold store_flush. destruct (pool_is_empty (st_p1 s)); [constructor; exact I|].
  destruct (st_ec s); [constructor; exact I|].
  eapply ao_bind; [apply ops_commit|]. intros [a|er] _; constructor; exact I.
Qed.

Lemma flush_extends e s w S p' w' S' c :
  fsteps ord (store_flush e s) w S p' w' S' -> wget w FDat = Some c -> exists x, wget w' FDat = Some (c ++ x).
Proof.
  intros Hs Hc. eapply (ext_fsteps c); [exact Hs|apply ops_flush|]. exists []. rewrite app_nil_r. auto.
Qed.

Lemma steps_bind ordf {A B} (f : A -> prog B) (p : prog A) w S p' w' S' :
  steps ordf p w S p' w' S' -> steps ordf (bind p f) w S (bind p' f) w' S'.
Proof. induction 1; simpl; constructor; auto. Qed.
Lemma crash_bind ordf {A B} (f : A -> prog B) (p : prog A) w S v :
  crash ordf p w S v -> crash ordf (bind p f) w S v.
Proof. intros (p1 & w1 & S1 & Hs & Hd). exists (bind p1 f), w1, S1. split; auto. apply steps_bind. auto. Qed.

(** Failures leave what stopping may leave. *)
Lemma failed_flush_crash e s w S q w' S' v :
  fsteps ord (store_flush e s) w S q w' S' -> on_disk S w -> v = w' \/ on_disk S' v ->
  crash ord (op_prog e s OpFlush) w S v.
Proof.
  intros Hs Hd Hv. assert (Hv' : on_disk S' v).
  { destruct Hv as [-> |Hv]; auto. eapply fsteps_live; eauto. }
  clear Hv. unfold op_prog. apply crash_bind. unfold store_flush in *.
  destruct (pool_is_empty (st_p1 s)); [|destruct (st_ec s) as [er|]].
  - apply fsteps_ret in Hs as (-> & -> & ->). exists (Ret s), w, S. split; [constructor|auto].
  - apply fsteps_ret in Hs as (-> & -> & ->). eexists _, w, S. split; [constructor|auto].
  - apply crash_bind. apply fsteps_bind_ret in Hs as (q0 & Hs & ->).
    + eapply strict_crash; [apply strict_commit|exact Hs|auto].
    + intros [a|er]; eauto.
Qed.

(** Errors are final. *)
Lemma failed_store e s er w : st_ec s = Some er ->
  (forall k v, run (store_insert e s k v) w = (w, Er er)) /\
  (forall k, run (store_fetch e s k) w = (w, Er er)) /\
  (exists s', run (store_flush e s) w = (w, s') /\ st_ec s' = Some er) /\
  run (store_close e s) w = (w, Er er).
Proof.
  intros He.
  assert (Hf : exists s', run (store_flush e s) w = (w, s') /\ st_ec s' = Some er).
  { unfold store_flush. destruct (pool_is_empty (st_p1 s)); [exists s; auto|]. rewrite He. eexists. split; reflexivity. }
  splits; auto.
  - intros k v. unfold store_insert. rewrite He. reflexivity.
  - intros k. unfold store_fetch. rewrite He. reflexivity.
  - destruct Hf as (s' & Hr & He'). unfold store_close. rewrite (run_bind_eq _ _ _ _ _ Hr), He'. reflexivity.
Qed.

Section Fail.
Variables (e : env) (p : dbp).
Hypothesis Hp : dbp_ok p.
Hypothesis Hit : iter_ok e.

Lemma commit_outcome recs T s w : sinv e p recs T s w ->
  (exists w' s', run (commit e s) w = (w', Ok s')) \/ exists w', run (commit e s) w = (w', Er EAssert).
Proof using Hp Hit.
  intros Hi. destruct (commit_data_run e p Hp recs T s w Hi) as (news & _ & _ & [(st & T' & Hc)|(w' & _ & Hr & _)]).
  - left. destruct (commit_ok e p Hp Hit _ _ _ _ _ _ _ Hi Hc) as (Hr & _). eauto.
  - right. eauto.
Qed.

(** The data and log files are written exactly at their end. *)
Lemma flush_at_end recs T s w S f ap off d k w1 S1 :
  sinv e p recs T s w ->
  fsteps ord (store_flush e s) w S (Do (IoWrite f ap off d) k) w1 S1 -> f <> FKey ->
  exists c, wget w1 f = Some c /\ off = blen c.
Proof using Hp Hit.
  intros Hi Hs Hf. unfold store_flush in Hs. destruct (pool_is_empty (st_p1 s)).
  { apply fsteps_ret in Hs as (X & _). discriminate X. }
  rewrite (si_ec _ _ _ _ _ _ Hi) in Hs.
  apply fsteps_bind_ret in Hs as (q0 & Hs & Eq); [|intros [a|er]; eauto].
  destruct q0 as [r|o0 k0]; [destruct r; discriminate Eq|]. simpl in Eq. injection Eq as <- _.
  destruct (strict_fsteps _ _ _ _ _ _ _ (strict_commit e s) Hs) as [H|(o & k' & w2 & S2' & n & _ & _ & X & _)];
    [|discriminate X].
  pose proof (steps_allops _ _ _ _ _ _ _ _ _ H (ops_commit e s)) as Ha. inversion Ha as [|? ? Ho _]; subst.
  pose proof (steps_strict _ _ _ _ _ _ _ H (strict_commit e s)) as Hst. inversion Hst as [|? ? Hk _]; subst.
  pose proof (steps_run _ _ _ _ _ _ _ H) as Hr. rewrite run_do in Hr.
  assert (Hno : forall er, er <> EAssert -> snd (exec (IoWrite f ap off d) w1) = RErr er -> False).
  { intros er Hne X. rewrite X, Hk in Hr. change (run (Ret (@Er store er)) ?x) with (x, @Er store er) in Hr.
    destruct (commit_outcome _ _ _ _ Hi) as [(w' & s' & Hr2)|(w' & Hr2)]; rewrite Hr2 in Hr;
      injection Hr; intros; congruence. }
  simpl in Ho. destruct Ho as [Ho| ->]; [contradiction|].
  cbn [exec] in Hno. destruct (wget w1 f) as [c|]; [|exfalso; apply (Hno EBadF); [discriminate|reflexivity]].
  exists c. split; auto. destruct (N.eqb_spec off (blen c)) as [E|E]; auto.
  exfalso. apply (Hno EAppend); [discriminate|]. simpl. reflexivity.
Qed.
End Fail.

(** ** Stopping a call, in terms of files *)
Lemma recover_done e p recs T w : dbp_ok p -> disk e p recs T w ->
  run (recover e) (w_done e p recs T) = (w_done e p recs T, Ok tt).
Proof.
  intros Hp Hd. assert (Hr : at_rest e p recs T (w_done e p recs T)) by (unfold at_rest; splits; auto).
  destruct (recover_rest e p Hp recs T w Hd (at_rest e p recs T) (w_done e p recs T) (durable (w_done e p recs T))) as [R _]; auto.
  apply quiet_durable; auto.
Qed.

Lemma same_done e p recs T w : disk e p recs T w -> same_files (w_done e p recs T) w.
Proof. intros [H1 H2 _ _ _ _ _]. unfold same_files, wget in *. rewrite H1, H2. split; reflexivity. Qed.

Lemma stop_files e a M0 evs os M c w1 :
  good_args a -> iter_ok e -> started e a M0 -> happened e M0 evs os M ->
  Forall (fun ev => valid_op (ca_key_size a) (event_op ev)) evs -> valid_op (ca_key_size a) c ->
  crash ord (op_prog e (m_store M) c) (m_files M) (m_disk M) w1 ->
  exists w3, w_log w3 = None /\ run (recover e) w3 = (w3, Ok tt) /\
    (same_files w3 (m_files M) \/
     exists w' s', run (op_prog e (m_store M) c) (m_files M) = (w', (Some s', ODone)) /\ same_files w3 w') /\
    forall w2, interrupted ord e w1 w2 ->
      run (recover e) w2 = (w3, Ok tt) /\
      exists w4 s4, run (store_open e) w2 = (w4, Ok s4) /\ same_files w4 w3.
Proof.
  intros Ha Hit Hs Hh Hv Hvc Hc. destruct (good_args_ok a Ha) as (Hp & _).
  destruct (events_ok _ _ _ _ _ _ Ha Hit Hs Hh Hv) as (recs & T & m & d & (Hi & HS & _) & Hm & Hd & _).
  destruct (stop_result e (dbp_of a) Hp Hit _ _ _ _ _ _ _ _ _ Hi HS (young_of a) Hvc Hm Hd Hc) as [R|(x & T' & s' & w' & Hr & Hi' & _ & R)].
  - pose proof (si_disk _ _ _ _ _ _ Hi) as Hdk.
    exists (w_done e (dbp_of a) recs T). splits; auto.
    + eapply recover_done; eauto.
    + left. eapply same_done; eauto.
    + intros w2 Hw2. destruct (R _ Hw2) as [R1 R2 _ _]. split; auto. do 2 eexists. split; [exact R2|]. split; reflexivity.
  - pose proof (si_disk _ _ _ _ _ _ Hi') as Hdk.
    exists (w_done e (dbp_of a) (recs ++ x) T'). splits; auto.
    + eapply recover_done; eauto.
    + right. exists w', s'. split; auto. eapply same_done; eauto.
    + intros w2 Hw2. destruct (R _ Hw2) as [R1 R2 _ _]. split; auto. do 2 eexists. split; [exact R2|]. split; reflexivity.
Qed.

(** ** What has been flushed stays *)
Definition below (d m : smap) : Prop := forall k v, d k = Some v -> m k = Some v.

Lemma step_below m c : below m (fst (spec_step m c)).
Proof.
  intros k v Hk. destruct c as [k0 v0|k0| |]; simpl; auto.
  - destruct (m k0) eqn:E; simpl; auto. unfold sput. destruct (beq k0 k) eqn:B; auto.
    apply beq_eq in B. congruence.
  - destruct (m k0); auto.
Qed.
Lemma saved_below m d c : below d m -> below d (saved m d c) /\ below (saved m d c) m.
Proof. unfold below. intros H. destruct c; simpl; split; auto. Qed.
Lemma spec_events_below m d evs os m' d' : spec_events m d evs os m' d' -> below d m -> below d m' /\ below d' m'.
Proof.
  induction 1 as [m d|m d c evs os m' d' H IH|m d c evs os m' d' H IH|m d c evs os m' d' H IH]; intros Hb.
  - auto.
  - destruct (saved_below m d c Hb) as [S1 S2]. destruct IH as [I1 I2].
    + intros k v Hk. apply step_below. auto.
    + unfold below in *. split; auto.
  - apply IH. unfold below; auto.
  - destruct (saved_below m d c Hb) as [S1 S2]. destruct IH as [I1 I2].
    + unfold below; auto.
    + unfold below in *. split; auto.
Qed.

Lemma flush_keeps e a M0 evs os M M1 evs2 os2 M2 k v w :
  good_args a -> iter_ok e -> started e a M0 -> happened e M0 evs os M ->
  happens e M (Call OpFlush) [ODone] M1 -> happened e M1 evs2 os2 M2 ->
  Forall (fun ev => valid_op (ca_key_size a) (event_op ev)) evs ->
  Forall (fun ev => valid_op (ca_key_size a) (event_op ev)) evs2 ->
  blen k = ca_key_size a ->
  run (store_fetch e (m_store M) k) (m_files M) = (w, Ok v) ->
  run (store_fetch e (m_store M2) k) (m_files M2) = (m_files M2, Ok v).
Proof.
  intros Ha Hit Hs Hh Hf Hh2 Hv Hv2 Hk Hr. destruct (good_args_ok a Ha) as (Hp & _).
  destruct (events_ok _ _ _ _ _ _ Ha Hit Hs Hh Hv) as (recs & T & m & d & Hi & Hm & Hd & _).
  assert (Hvo : valid_op (db_key_size (dbp_of a)) OpFlush) by exact I.
  destruct (happens_ok e (dbp_of a) Hp Hit _ _ _ (Call OpFlush) _ _ _ _ Hi (young_of a) Hvo Hm Hd Hf) as (x & T1 & _ & _ & Hi1 & _).
  pose proof Hi as (Hi0 & _).
  assert (Em : abs recs (m_store M) k = Some v).
  { rewrite (fetch_ok e _ Hp _ _ _ _ _ Hi0 Hk) in Hr. destruct (abs recs (m_store M) k); congruence. }
  (* after the flush everything is saved *)
  inversion Hf as [w0 S s c w' s' o Hop Ho|]; subst. cbn [m_store m_files] in *.
  destruct (op_result e _ Hp Hit _ _ _ _ _ m d Hi0 Hvo Hm Hd) as [(y & T2 & s2 & w2 & Hr2 & Hi2 & Ha2 & Hsv)|(w2 & o2 & Hr2)];
    rewrite Hop in Hr2; [|discriminate Hr2].
  injection Hr2 as <- <-.
  assert (Hi3 : minv e (dbp_of a) (recs ++ y) T2 (Mach w' (srun ord (op_prog e s OpFlush) w0 S) s')).
  { unfold minv in *. cbn [m_store m_files m_disk] in *. splits; [exact Hi2|apply Hi1..]. }
  destruct (happened_ok e _ Hp Hit _ _ _ _ Hh2 _ _ m m Hi3 (young_of a) Hv2 Ha2 Hsv) as (z & T3 & m3 & d3 & Hi4 & Hm3 & _ & Hev).
  destruct (spec_events_below _ _ _ _ _ _ Hev) as [Hb _]. { intros k' v' X; exact X. }
  destruct Hi4 as (Hi5 & _). rewrite (fetch_ok e _ Hp _ _ _ _ _ Hi5 Hk), <- Hm3.
  rewrite (Hb k v); auto. rewrite Hm. exact Em.
Qed.
