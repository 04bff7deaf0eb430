(** Programs that only read, and sums over threads. *)
From Verif Require Import Model.Bytes Model.Err Model.Field Model.Format Model.IO Model.BulkIO
  Model.Bucket Model.Pool Model.Recover Model.Create Model.Store Spec SpecLin Model.History Model.Crash
  Model.Concurrent
  Proofs.BytesFacts Proofs.IOFacts Proofs.BucketFacts Proofs.BulkFacts Proofs.Table Proofs.CommitFacts
  Proofs.SafeFacts Proofs.CommitOps Proofs.CrashFacts.
Opaque loop.

(** ** Reading *)
(** What a read of [f] answers. *)
Definition readable (w : world) (f : fname) (off len : N) (d : bytes) : Prop :=
  exists c, wget w f = Some c /\ d = bsub off len c /\ (len = 0 \/ off + len <= blen c).

(** The places that may be read: the data file, and the places [kr] of the key file. *)
Definition allowed (kr : N -> N -> Prop) (f : fname) (off len : N) : Prop :=
  f = FDat \/ f = FKey /\ kr off len.

(** [p] does nothing but successful reads in [w], then it ends with [a]. *)
Inductive reads (kr : N -> N -> Prop) (w : world) {A} : prog A -> A -> Prop :=
| rd_ret a : reads kr w (Ret a) a
| rd_do f off len k d a :
    allowed kr f off len -> readable w f off len d -> reads kr w (k (ROk 0 d)) a ->
    reads kr w (Do (IoRead f off len) k) a.

(** What may be read in [w] is the same in [w']. *)
Definition same (kr : N -> N -> Prop) (w w' : world) : Prop :=
  forall f off len d, allowed kr f off len -> readable w f off len d -> readable w' f off len d.

Lemma reads_same kr w w' {A} (p : prog A) a : same kr w w' -> reads kr w p a -> reads kr w' p a.
Proof. intros Hs H. induction H; econstructor; eauto. Qed.

Lemma reads_weaken (kr kr' : N -> N -> Prop) w {A} (p : prog A) a :
  (forall o l, kr o l -> kr' o l) -> reads kr w p a -> reads kr' w p a.
Proof.
  intros Hi H. induction H as [|f off len k d a [->|[-> Hk]] Hr H IH]; econstructor; eauto; [left|right]; auto.
Qed.

Lemma readable_exec w f off len d : readable w f off len d -> exec (IoRead f off len) w = (w, ROk 0 d).
Proof.
  intros (c & Hc & -> & Hl). cbn [exec]. rewrite Hc.
  replace ((len =? 0) || (off + len <=? blen c)) with true; auto. symmetry. apply orb_true_iff. lia.
Qed.

Lemma reads_inv kr w {A} o (k : rsp -> prog A) a : reads kr w (Do o k) a ->
  exists f off len r, o = IoRead f off len /\ allowed kr f off len /\
    exec o w = (w, r) /\ reads kr w (k r) a /\ (exists d, readable w f off len d).
Proof.
  intros H. inversion H; subst. do 4 eexists. splits; eauto. apply readable_exec; auto.
Qed.

Lemma reads_ret kr w {A} (a b : A) : reads kr w (Ret a) b -> a = b.
Proof. intros H. inversion H. auto. Qed.

(** Operations that only read allowed places. *)
Definition rdop (kr : N -> N -> Prop) (o : io) : Prop :=
  exists f off len, o = IoRead f off len /\ allowed kr f off len.

Lemma reads_run kr {A} (p : prog (res A)) : forall w w' r,
  allops (rdop kr) anyres p -> strict p -> run p w = (w', r) ->
  (forall er, r = Er er -> er = key_not_found) -> reads kr w p r /\ w' = w.
Proof.
  induction p as [a|o k IH]; intros w w' r Ha Hs Hr Hne.
  - simpl in Hr. injection Hr; intros; subst. split; auto. constructor.
  - inversion Ha as [|? ? (f & off & len & -> & Hal) Hk]; subst. inversion Hs as [|? ? He Hk2]; subst.
    rewrite run_do in Hr. cbn [exec] in Hr. destruct (wget w f) as [c|] eqn:Ec.
    + destruct ((len =? 0) || (off + len <=? blen c)) eqn:El; cbn [fst snd] in Hr.
      * destruct (IH _ _ _ _ (Hk _) (Hk2 _) Hr Hne) as [H1 H2]. split; auto.
        econstructor; eauto. exists c. splits; auto. apply orb_true_iff in El. lia.
      * rewrite (He short_read) in Hr. simpl in Hr. injection Hr; intros; subst.
        specialize (Hne _ eq_refl). discriminate.
    + cbn [fst snd] in Hr. rewrite (He EBadF) in Hr. simpl in Hr.
      injection Hr; intros; subst. specialize (Hne _ eq_refl). discriminate.
Qed.

Definition nokey (off len : N) : Prop := False.
(** Block [n] of the key file. *)
Definition blk (bs n off len : N) : Prop := (n + 1) * bs <= off /\ off + len <= (n + 1) * bs + bs.

Section Readers.
Variable kr : N -> N -> Prop.
Notation P := (rdop kr).

Lemma rd_bk_read b f off :
  allowed kr f off (bucket_size (bucket_capacity (blen b))) -> allops P (okres anyres) (bk_read b f off).
Proof.
  intros Ha. unfold bk_read. apply (ao_ebind P anyres).
  - apply ao_data. do 3 eexists. split; [reflexivity|auto].
  - intros d _. destruct (bucket_capacity (blen b) <? bk_size (bk_of_blob (bwrite 0 d b)));
      [apply ao_pfail|apply ao_pret; exact I].
Qed.

Lemma rd_fetch_scan ks h key b fuel : forall i, allops P (okres anyres) (fetch_scan fuel ks h key b i).
Proof.
  induction fuel as [|fuel IH]; intros i; cbn [fetch_scan]; cbv zeta; [apply ao_pret; exact I|].
  destruct (negb (en_hash (bk_at b i) =? h)); [apply ao_pret; exact I|].
  apply (ao_ebind P anyres).
  - apply ao_data. do 3 eexists. split; [reflexivity|left; auto].
  - intros d _. destruct (beq (btake ks d) key); [apply ao_pret; exact I|auto].
Qed.
Lemma rd_exists_scan ks h key b fuel : forall i, allops P (okres anyres) (exists_scan fuel ks h key b i).
Proof.
  induction fuel as [|fuel IH]; intros i; cbn [exists_scan]; cbv zeta; [apply ao_pret; exact I|].
  destruct (negb (en_hash (bk_at b i) =? h)); [apply ao_pret; exact I|].
  apply (ao_ebind P anyres).
  - apply ao_data. do 3 eexists. split; [reflexivity|left; auto].
  - intros d _. destruct (beq d key); [apply ao_pret; exact I|auto].
Qed.

Lemma rd_fetch_bucket e kh h key b : allops P (okres anyres) (fetch_bucket e kh h key b).
Proof.
  unfold fetch_bucket. apply (ao_loop P anyres); [|exact I]. clear b. intros b _. unfold fetch_step.
  eapply (ao_bind P); [apply rd_fetch_scan|]. intros [[v|]|er] _; [constructor; exact I| |constructor; exact I].
  destruct (bk_spill b =? 0); [constructor; exact I|].
  eapply (ao_bind P); [apply rd_bk_read; left; auto|]. intros [b'|er] _; constructor; exact I.
Qed.
Lemma rd_exists_bucket e kh h key b : allops P (okres anyres) (exists_bucket e kh h key b).
Proof.
  unfold exists_bucket. apply (ao_loop P anyres); [|exact I]. clear b. intros b _. unfold exists_step.
  eapply (ao_bind P); [apply rd_exists_scan|]. intros [[|]|er] _; [constructor; exact I| |constructor; exact I].
  destruct (bk_spill b =? 0); [constructor; exact I|].
  eapply (ao_bind P); [apply rd_bk_read; left; auto|]. intros [b'|er] _; constructor; exact I.
Qed.
Lemma rd_exists_rest e kh h key b : allops P (okres anyres) (exists_rest e kh h key b).
Proof.
  unfold exists_rest. destruct (bk_spill b =? 0); [apply ao_pret; exact I|].
  apply (ao_ebind P anyres); [apply rd_bk_read; left; auto|]. intros; apply rd_exists_bucket.
Qed.
End Readers.

Lemma strict_fetch_scan ks h key b fuel : forall i, strict (fetch_scan fuel ks h key b i).
Proof.
  induction fuel as [|fuel IH]; intros i; cbn [fetch_scan]; cbv zeta; [st1|].
  destruct (negb (en_hash (bk_at b i) =? h)); [st1|]. st1; [st1|].
  destruct (beq (btake ks a) key); [st1|auto].
Qed.
Lemma strict_exists_scan ks h key b fuel : forall i, strict (exists_scan fuel ks h key b i).
Proof.
  induction fuel as [|fuel IH]; intros i; cbn [exists_scan]; cbv zeta; [st1|].
  destruct (negb (en_hash (bk_at b i) =? h)); [st1|]. st1; [st1|].
  destruct (beq a key); [st1|auto].
Qed.
Lemma strict_fetch_bucket e kh h key b : strict (fetch_bucket e kh h key b).
Proof.
  unfold fetch_bucket. apply strict_loop. clear b. intros b. unfold fetch_step.
  apply sst_bind; [apply strict_fetch_scan| |auto].
  intros [[v|]|er]; [constructor| |constructor].
  destruct (bk_spill b =? 0); [constructor|].
  apply sst_bind; [apply strict_bk_read| |auto]. intros [b'|er]; constructor.
Qed.
Lemma strict_exists_bucket e kh h key b : strict (exists_bucket e kh h key b).
Proof.
  unfold exists_bucket. apply strict_loop. clear b. intros b. unfold exists_step.
  apply sst_bind; [apply strict_exists_scan| |auto].
  intros [[|]|er]; [constructor| |constructor].
  destruct (bk_spill b =? 0); [constructor|].
  apply sst_bind; [apply strict_bk_read| |auto]. intros [b'|er]; constructor.
Qed.
Lemma strict_exists_rest e kh h key b : strict (exists_rest e kh h key b).
Proof.
  unfold exists_rest. destruct (bk_spill b =? 0); [st1|]. st1; [apply strict_bk_read|apply strict_exists_bucket].
Qed.

(** ** What the flush does to the files *)
(** Operations before the publication of the new buckets ... *)
Definition dop (o : io) : Prop :=
  io_pure o \/ (exists f, o = IoSync f) \/ (exists off d, o = IoWrite FDat true off d) \/
  (exists ap off d, o = IoWrite FLog ap off d).
(** ... between the publication and the end of the wait ... *)
Definition lop (o : io) : Prop :=
  io_pure o \/ (exists f, o = IoSync f) \/ (exists ap off d, o = IoWrite FLog ap off d) \/
  (exists n, o = IoTrunc FLog n).
(** ... and after it. *)
Definition kop (bs : N) (c : cache) (o : io) : Prop := lop o \/ key_block bs c o.

Lemma sync_exec f w : fst (exec (IoSync f) w) = w.
Proof. cbn [exec]. destruct (wget w f); auto. Qed.

Lemma wlog_exec ap off d w : exists l, fst (exec (IoWrite FLog ap off d) w) = wset w FLog l.
Proof.
  cbn [exec]. destruct (wget w FLog) as [c|] eqn:E.
  - destruct (ap && negb (off =? blen c)); [|eexists; reflexivity].
    exists (Some c). destruct w. unfold wset, wget in *. cbn in *. congruence.
  - exists None. destruct w. unfold wset, wget in *. cbn in *. congruence.
Qed.

Lemma lop_exec o w : lop o ->
  wget (fst (exec o w)) FKey = wget w FKey /\ wget (fst (exec o w)) FDat = wget w FDat.
Proof.
  intros [Hp|[(f & ->)|[(ap & off & d & ->)|(n & ->)]]].
  - rewrite pure_exec by auto. auto.
  - rewrite sync_exec. auto.
  - destruct (wlog_exec ap off d w) as (l & ->). rewrite !wget_wset_other by discriminate. auto.
  - cbn [exec]. destruct (wget w FLog); cbn [fst]; rewrite ?wget_wset_other by discriminate; auto.
Qed.

Lemma dop_exec o w x : dop o -> wget w FDat = Some x ->
  wget (fst (exec o w)) FKey = wget w FKey /\
  exists y, wget (fst (exec o w)) FDat = Some y /\ pref x y.
Proof.
  intros [Hp|[(f & ->)|[(off & d & ->)|(ap & off & d & ->)]]] Hx.
  - rewrite pure_exec by auto. split; auto. exists x. split; auto. apply pref_refl.
  - rewrite sync_exec. split; auto. exists x. split; auto. apply pref_refl.
  - assert (Ha : app_to FDat (IoWrite FDat true off d)) by (right; eauto).
    split; [apply (app_other FDat); auto; discriminate|apply app_exec; auto].
  - destruct (wlog_exec ap off d w) as (l & ->). rewrite !wget_wset_other by discriminate. split; auto.
    exists x. split; auto. apply pref_refl.
Qed.

Lemma bsub_pref off len x y : pref x y -> off + len <= blen x -> bsub off len y = bsub off len x.
Proof. intros (t & ->) Hl. apply bsub_app_l. auto. Qed.

Lemma readable_pref w w' f off len d x y :
  wget w f = Some x -> wget w' f = Some y -> pref x y ->
  readable w f off len d -> readable w' f off len d.
Proof.
  intros Hx Hy Hp (c & Hc & -> & Hl). rewrite Hx in Hc. injection Hc as <-. exists y. splits; auto.
  - destruct Hl as [->|Hl]; [|symmetry; apply bsub_pref; auto]. unfold bsub, btake. reflexivity.
  - destruct Hl as [->|Hl]; auto. right. apply pref_len in Hp. lia.
Qed.

(** The key file does not change and the data file only grows. *)
Lemma same_ext kr w w' x y :
  wget w' FKey = wget w FKey -> wget w FDat = Some x -> wget w' FDat = Some y -> pref x y -> same kr w w'.
Proof.
  intros Hk Hx Hy Hp f off len d [->|[-> Ha]] Hr.
  - exact (readable_pref _ _ _ _ _ _ _ _ Hx Hy Hp Hr).
  - destruct Hr as (c & Hc & Hr). exists c. split; auto. congruence.
Qed.

Lemma same_dop kr o w x : dop o -> wget w FDat = Some x -> same kr w (fst (exec o w)).
Proof. intros Ho Hx. destruct (dop_exec o w x Ho Hx) as (Hk & y & Hy & Hp). eapply same_ext; eauto. Qed.

Lemma same_lop kr o w : lop o -> same kr w (fst (exec o w)).
Proof.
  intros Ho. destruct (lop_exec o w Ho) as (Hk & Hd).
  intros f off len d [->|[-> Ha]] (c & Hc & Hr); exists c; split; auto; congruence.
Qed.

(** Writing another block. *)
Lemma bsub_bwrite_other off len o d (x : bytes) :
  off + len <= blen x -> (off + len <= o \/ o + blen d <= off) -> bsub off len (bwrite o d x) = bsub off len x.
Proof.
  intros Hl Ho.
  assert (Hb : blen x <= blen (bwrite o d x)) by (rewrite blen_bwrite_gen; lia).
  apply (nthN_ext _ _ 0).
  - rewrite !blen_bsub by lia. auto.
  - intros i Hi. rewrite blen_bsub in Hi by lia. unfold bsub.
    rewrite !nthN_btake, !nthN_bdrop by auto. rewrite nthN_bwrite.
    destruct (N.leb_spec o (off + i)); destruct (N.ltb_spec (off + i) (o + blen d)); cbn [andb]; auto; lia.
Qed.

Lemma same_block bs n n' q w x :
  n <> n' -> blen q = bs -> wget w FKey = Some x ->
  same (blk bs n) w (fst (exec (IoWrite FKey false ((n' + 1) * bs) q) w)).
Proof.
  intros Hn Hq Hx f off len d Ha Hr. cbn [exec]. rewrite Hx. cbn [andb fst].
  destruct Ha as [->|[-> [H1 H2]]]; destruct Hr as (c & Hc & -> & Hl).
  - exists c. splits; auto.
  - rewrite Hx in Hc. injection Hc as <-. exists (bwrite ((n' + 1) * bs) q x). splits.
    + apply wget_wset_same.
    + destruct Hl as [->|Hl]; [reflexivity|]. symmetry. apply bsub_bwrite_other; [auto|]. rewrite Hq.
      destruct (N.lt_trichotomy n n') as [L|[L|L]]; [left|contradiction|right]; nia.
    + destruct Hl as [->|Hl]; auto. right. rewrite blen_bwrite_gen. lia.
Qed.

Lemma same_nokey kr w w' : same kr w w' -> same nokey w w'.
Proof. intros H f off len d [->|[_ []]]. apply H. left. auto. Qed.

(** ** Sums over threads *)
Fixpoint sumw (wt : cth -> N) (A : list N) (th : N -> cth) : N :=
  match A with [] => 0 | t :: A' => wt (th t) + sumw wt A' th end.

Lemma tset_same th t s : tset th t s t = s.
Proof. unfold tset. rewrite N.eqb_refl. auto. Qed.
Lemma tset_other th t s u : u <> t -> tset th t s u = th u.
Proof. intros. unfold tset. replace (u =? t) with false by lia. auto. Qed.

Lemma sumw_out wt A th t s : ~ In t A -> sumw wt A (tset th t s) = sumw wt A th.
Proof.
  induction A as [|u A IH]; simpl; intros Hn; auto. rewrite IH by tauto. rewrite tset_other; [auto|].
  intros ->. tauto.
Qed.
Lemma sumw_upd wt A th t s : NoDup A -> In t A ->
  sumw wt A (tset th t s) + wt (th t) = sumw wt A th + wt s.
Proof.
  induction A as [|u A IH]; simpl; intros Hn Hi; [contradiction|]. inversion Hn; subst.
  destruct (N.eq_dec u t) as [->|Hu].
  - rewrite sumw_out by auto. rewrite tset_same. lia.
  - rewrite tset_other by auto. destruct Hi as [Hi|Hi]; [contradiction|]. specialize (IH H2 Hi). lia.
Qed.
Lemma sumw_ge wt A th t : In t A -> wt (th t) <= sumw wt A th.
Proof. induction A as [|u A IH]; simpl; intros Hi; [contradiction|]. destruct Hi as [->|Hi]; [lia|]. specialize (IH Hi). lia. Qed.
Lemma sumw_ext wt wt' A th : (forall t, In t A -> wt (th t) = wt' (th t)) -> sumw wt A th = sumw wt' A th.
Proof. induction A as [|u A IH]; simpl; intros Hw; auto. rewrite Hw, IH by auto. auto. Qed.
Lemma sumw_add wt wt' A th : sumw (fun s => wt s + wt' s) A th = sumw wt A th + sumw wt' A th.
Proof. induction A as [|u A IH]; simpl; auto. rewrite IH. lia. Qed.
Lemma sumw_zero wt A th : (forall t, In t A -> wt (th t) = 0) -> sumw wt A th = 0.
Proof. induction A as [|u A IH]; simpl; intros Hw; auto. rewrite Hw, IH by auto. auto. Qed.
Lemma sumw_pos wt A th : 0 < sumw wt A th -> exists t, In t A /\ 0 < wt (th t).
Proof.
  induction A as [|u A IH]; simpl; intros H; [lia|]. destruct (N.eq_dec (wt (th u)) 0) as [E|E].
  - destruct IH as (t & H1 & H2); [lia|]. eauto.
  - exists u. split; auto. lia.
Qed.
Lemma sumw_two wt A th t u : wt CIdle = 0 -> NoDup A -> In t A -> In u A -> t <> u ->
  wt (th t) + wt (th u) <= sumw wt A th.
Proof.
  intros H0 Hn Ht Hu Htu. pose proof (sumw_upd wt A th t CIdle Hn Ht) as X.
  pose proof (sumw_ge wt A (tset th t CIdle) u Hu) as Y. rewrite tset_other in Y by auto. lia.
Qed.

(** ** Executions with atomic calls *)
Lemma atomic_app m f h m1 f1 h' m2 f2 :
  atomic m f h m1 f1 -> atomic m1 f1 h' m2 f2 -> atomic m f (h ++ h') m2 f2.
Proof.
  intros H1 H2. induction H1; simpl; auto.
  - apply at_call; auto.
  - eapply at_effect; eauto.
  - apply at_ret with (1 := H). auto.
Qed.
Lemma lset_same f t s : lset f t s t = s.
Proof. unfold lset. rewrite N.eqb_refl. auto. Qed.
Lemma lset_other f t s u : u <> t -> lset f t s u = f u.
Proof. intros. unfold lset. replace (u =? t) with false by lia. auto. Qed.

Lemma calls_app a b : calls (a ++ b) = calls a ++ calls b.
Proof. induction a as [|[t c|t o] a IH]; simpl; rewrite ?IH; auto. Qed.
