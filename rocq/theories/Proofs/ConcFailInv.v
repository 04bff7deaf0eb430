(** The invariant of a store used by several threads when file operations fail. *)
From Verif Require Import Model.Bytes Model.Err Model.Field Model.Format Model.IO Model.BulkIO
  Model.Bucket Model.Pool Model.Recover Model.Create Model.Store Spec SpecLin SpecDurable SpecFail Model.History Model.Crash
  Model.Events Model.Concurrent Model.ConcCrash Model.ConcFail
  Proofs.BytesFacts Proofs.IOFacts Proofs.PoolFacts Proofs.BucketFacts Proofs.BulkFacts Proofs.HashFacts
  Proofs.Table Proofs.Lookup Proofs.CommitFacts Proofs.CommitInv Proofs.CommitRun Proofs.StoreInv
  Proofs.SplitFacts Proofs.OpenFacts Proofs.HistoryFacts Proofs.LifeFacts Proofs.MapFacts Proofs.SafeFacts
  Proofs.CommitOps Proofs.CrashFacts Proofs.RecoverFacts Proofs.EventFacts
  Proofs.ConcFacts Proofs.ConcLook Proofs.ConcInv Proofs.ConcStep Proofs.ConcFlush Proofs.ConcTheorems Proofs.ConcDurable.
Opaque loop.
Local Opaque lhead dat0 key0.

(** ** What a failed operation leaves of the files *)
Lemma log_failed_same kr f w x : f = FLog -> same kr w (wset w f x).
Proof.
  intros -> g off len d [->|[-> _]] (c & Hc & Hr); exists c; split; auto.
Qed.

Lemma same_failed_lop kr o w w' : lop o -> failed log_in_order o w w' -> same kr w w'.
Proof.
  intros Ho Hf. destruct Ho as [Ho|[(f & ->)|[(ap & off & d & ->)|(n & ->)]]].
  - destruct o; try contradiction Ho; cbn [failed] in Hf; subst; apply same_refl.
  - cbn [failed] in Hf. subst. apply same_refl.
  - cbn [failed] in Hf. destruct (wget w FLog) as [y|]; [|subst; apply same_refl].
    destruct (ap && negb (off =? blen y)); [subst; apply same_refl|].
    destruct Hf as (x' & -> & _). apply log_failed_same; auto.
  - cbn [failed] in Hf. destruct (wget w FLog) as [y|]; [|subst; apply same_refl].
    destruct Hf as (x' & -> & _). apply log_failed_same; auto.
Qed.

Lemma same_failed_dop kr o w w' : dop o -> failed log_in_order o w w' -> same kr w w'.
Proof.
  intros [Ho|[Ho|[(off & d & ->)|Ho]]] Hf.
  - eapply same_failed_lop; eauto. left. auto.
  - eapply same_failed_lop; eauto. right. left. auto.
  - cbn [failed] in Hf. destruct (wget w FDat) as [y|] eqn:E; [|subst; apply same_refl].
    destruct (true && negb (off =? blen y)) eqn:A; [subst; apply same_refl|].
    cbn [andb] in A. apply Bool.negb_false_iff, N.eqb_eq in A. subst off.
    destruct Hf as (x' & -> & Hx). cbn [log_in_order] in Hx. destruct Hx as [T1 T2].
    apply (same_ext _ _ _ y x'); auto.
    apply pref_nth; [lia|]. intros i Hi. apply T2; auto.
  - eapply same_failed_lop; eauto. right. right. left. auto.
Qed.

Lemma bsub_torn off len o l (x x' : bytes) :
  torn_write o l x x' -> off + len <= blen x -> (off + len <= o \/ o + l <= off) -> bsub off len x' = bsub off len x.
Proof.
  intros [T1 T2] Hl Ho. apply (nthN_ext _ _ 0).
  - rewrite !blen_bsub by lia. auto.
  - intros i Hi. rewrite blen_bsub in Hi by lia. unfold bsub.
    rewrite !nthN_btake, !nthN_bdrop by auto. apply T2; lia.
Qed.

Lemma same_failed_block bs n n' q w w' :
  n <> n' -> blen q = bs -> failed log_in_order (IoWrite FKey false ((n' + 1) * bs) q) w w' -> same (blk bs n) w w'.
Proof.
  intros Hn Hq Hf. cbn [failed andb log_in_order] in Hf. destruct (wget w FKey) as [x|] eqn:Hx; [|subst; apply same_refl].
  destruct Hf as (x' & -> & Ht). intros f off len d Ha Hr.
  destruct Ha as [->|[-> [H1 H2]]]; destruct Hr as (c & Hc & -> & Hl).
  - exists c. splits; auto.
  - rewrite Hx in Hc. injection Hc as <-. exists x'. splits.
    + apply wget_wset_same.
    + destruct Hl as [->|Hl]; [reflexivity|]. symmetry. eapply bsub_torn; eauto. rewrite Hq.
      destruct (N.lt_trichotomy n n') as [L|[L|L]]; [left|contradiction|right]; nia.
    + destruct Hl as [->|Hl]; auto. right. destruct Ht as [T1 _]. lia.
Qed.

(** ** Programs of threads *)
Definition tstrict (c : cth) : Prop :=
  match c with
  | CFetchC _ _ q => strict q
  | CFetchK _ _ q => strict q
  | CInsC _ _ _ _ q => strict q
  | CInsD _ _ q => strict q
  | CInsK _ _ _ _ q => strict q
  | _ => True
  end.
Definition all_strict (th : N -> cth) : Prop := forall t, tstrict (th t).

Lemma all_strict_set th t c : all_strict th -> tstrict c -> all_strict (tset th t c).
Proof. intros H Hc u. unfold tset. destruct (u =? t); auto. Qed.

Lemma thread_strict e x t h x' : all_strict (x_th x) -> thread_step e x t = Some (h, x') -> all_strict (x_th x').
Proof.
  intros Ha Hs. pose proof (Ha t) as Ht. unfold thread_step in Hs. cbv zeta in Hs.
  destruct (x_th x t) as [|k|n bl q|n g q|k v|k v|k v n bl q|k v q|k v n g q|k v|o] eqn:Hx; cbn [tstrict] in Ht.
  - discriminate.
  - injection Hs as <- <-. unfold fetch_section. cbv zeta.
    destruct (pool_find (st_p1 (x_s x)) k); [apply all_strict_set; [exact Ha|exact I]|].
    destruct (pool_find (st_p0 (x_s x)) k); [apply all_strict_set; [exact Ha|exact I]|].
    destruct (cache_find (st_c1 (x_s x)) _); apply all_strict_set; try exact Ha; cbn [tstrict].
    + apply strict_fetch_bucket.
    + apply strict_ebind; [apply strict_bk_read|intros; apply strict_fetch_bucket].
  - destruct q as [r|o c]; [|destruct (exec o (x_w x)) as [w r]]; injection Hs as <- <-; apply all_strict_set; try exact Ha; cbn [tstrict]; auto.
    eapply strict_do_inv; eauto.
  - destruct q as [r|o c]; [|destruct (exec o (x_w x)) as [w r]]; injection Hs as <- <-; apply all_strict_set; try exact Ha; cbn [tstrict]; auto.
    eapply strict_do_inv; eauto.
  - destruct (x_u x); [discriminate|]. injection Hs as <- <-. apply all_strict_set; [exact Ha|exact I].
  - injection Hs as <- <-. unfold insert_section. cbv zeta.
    destruct (pool_find (st_p1 (x_s x)) k); [apply all_strict_set; [exact Ha|exact I]|].
    destruct (pool_find (st_p0 (x_s x)) k); [apply all_strict_set; [exact Ha|exact I]|].
    destruct (cache_find (st_c1 (x_s x)) _); apply all_strict_set; try exact Ha; cbn [tstrict].
    + apply strict_exists_scan.
    + apply strict_ebind; [apply strict_bk_read|intros; apply strict_exists_bucket].
  - destruct q as [[[|]|]|o c]; [| | |destruct (exec o (x_w x)) as [w r]]; injection Hs as <- <-; apply all_strict_set; try exact Ha; cbn [tstrict]; auto.
    + apply strict_exists_rest.
    + eapply strict_do_inv; eauto.
  - destruct q as [[[|]|]|o c]; [| | |destruct (exec o (x_w x)) as [w r]]; injection Hs as <- <-; apply all_strict_set; try exact Ha; cbn [tstrict]; auto.
    eapply strict_do_inv; eauto.
  - destruct q as [[[|]|]|o c]; [| | |destruct (exec o (x_w x)) as [w r]]; injection Hs as <- <-; apply all_strict_set; try exact Ha; cbn [tstrict]; auto.
    eapply strict_do_inv; eauto.
  - destruct (x_m x =? 0); [|discriminate]. injection Hs as <- <-. apply all_strict_set; [exact Ha|exact I].
  - injection Hs as <- <-. apply all_strict_set; [exact Ha|exact I].
Qed.

Lemma strict_err {A} o (c : rsp -> prog (res A)) er : strict (Do o c) -> c (RErr er) = Ret (Er er).
Proof. intros H. inversion H; subst. auto. Qed.

(** ** The invariant *)

Lemma sumw_th wt A th th' : (forall t, th' t = th t) -> sumw wt A th' = sumw wt A th.
Proof. intros H. induction A as [|u A IH]; simpl; auto. rewrite H, IH. auto. Qed.

Lemma xinv_th e p fp recs T A x m f i b th' : (forall t, th' t = x_th x t) ->
  xinv e p fp recs T A x m f i b ->
  xinv e p fp recs T A (XSt (x_w x) (x_s x) (x_m x) (x_u x) (x_g x) th' (x_fl x)) m f i b.
Proof.
  intros H [I1 I2 I3 I4 I5 I6 I7 I8 I9 I10 I11].
  constructor; cbn [x_w x_s x_m x_u x_g x_th x_fl]; auto; try (rewrite (sumw_th _ _ _ _ H); auto).
  - intros t. rewrite H. auto.
  - intros t Ht. rewrite H. auto.
  - rewrite (sumw_th pb _ _ _ H). auto.
Qed.

Section Conc.
Variables (e : env) (p : dbp) (fp : err -> world -> Prop).
Hypothesis Hp : dbp_ok p.
Hypothesis Hit : iter_ok e.
Notation bs := (db_block_size p).
Notation ks := (db_key_size p).

(** A thread is refused, or a file operation made for it has failed. *)
Lemma refused_xinv recs T A x m f i b t n :
  xinv e p fp recs T A x m f i b -> at_entry (x_th x t) = true ->
  (exists c, f t = LPending c) /\
  xinv e p fp recs T A (goto x t (CRet (refused_out (x_th x t) (EIO n)))) m (lset f t (LDone OOther)) i b.
Proof using Type.
  intros Hi Hen. pose proof (xi_th _ _ _ _ _ _ _ _ _ _ _ Hi t) as Ht.
  destruct (x_th x t) as [|k|? ? ?|? ? ?|k v|k v|k v ? ? ?|k v ?|k v ? ? ?|k v|o] eqn:Hx; try discriminate; cbn [tok] in Ht.
  - split; [eexists; apply Ht|]. unfold goto.
    eapply xinv_goto with (l := LDone OOther); eauto; rewrite ?Hx; try discriminate; try (cbn; lia);
      [apply lset_same|intros; apply lset_other; auto|reflexivity].
  - split; [eexists; apply Ht|]. unfold goto.
    eapply xinv_goto with (l := LDone OOther); eauto; rewrite ?Hx; try discriminate; try (cbn; lia);
      [apply lset_same|intros; apply lset_other; auto|reflexivity].
Qed.

Lemma goto_twice recs T A w s xm xu xg th t c c' fl m f i b :
  xinv e p fp recs T A (XSt w s xm xu xg (tset th t c') fl) m f i b ->
  xinv e p fp recs T A (XSt w s xm xu xg (tset (tset th t c) t c') fl) m f i b.
Proof using Type.
  intros H. refine (xinv_th e p fp recs T A (XSt w s xm xu xg (tset th t c') fl) m f i b _ _ H).
  intros u. cbn [x_th]. unfold tset. destruct (u =? t); auto.
Qed.

Lemma failed_xinv recs T A x m f i b t o n h x' :
  xinv e p fp recs T A x m f i b -> all_strict (x_th x) -> thread_io (x_th x t) = Some o ->
  thread_step e (goto x t (thread_failed (x_th x t) (EIO n))) t = Some (h, x') ->
  h = [] /\ may_fail (f t) /\ xinv e p fp recs T A x' m (lset f t (LDone OOther)) i b /\ x_s x' = x_s x /\
  x_w x' = x_w x /\ x_fl x' = x_fl x.
Proof using Type.
  intros Hi Hst Hio Hs. pose proof (xi_th _ _ _ _ _ _ _ _ _ _ _ Hi t) as Ht. pose proof (Hst t) as Hq.
  assert (Hok : forall l k v fd, outlook m l k v fd -> may_fail l).
  { intros l k v [|]; cbn [outlook]; [intros ->; discriminate|intros [-> _]; exact I]. }
  pose proof (wt_le e p fp wm _ _ _ _ _ _ _ _ t Hi eq_refl) as Wm.
  rewrite <- (xi_m _ _ _ _ _ _ _ _ _ _ _ Hi) in Wm.
  assert (Hu : wu (x_th x t) = 1 -> x_u x = true) by (intros; eapply u_true; eauto).
  assert (Hul : forall nn g, hold (x_th x t) = Some (nn, g) -> let gen := g_gen (x_g x) in
    g_gen (g_unlock (x_g x) g) = gen /\
    g_cur (g_unlock (x_g x) g) + wc gen (x_th x t) = g_cur (x_g x) /\
    g_prev (g_unlock (x_g x) g) + wp gen (x_th x t) = g_prev (x_g x)) by (intros; eapply unlock_ok; eauto).
  unfold thread_step in Hs. cbn [goto x_th x_w x_s x_m x_u x_g x_fl] in Hs. rewrite tset_same in Hs. cbv zeta in Hs.
  destruct (x_th x t) as [|k|nn bl q|nn g q|k v|k v|k v nn bl q|k v q|k v nn g q|k v|o0] eqn:Hx; try discriminate;
    cbn [tok tstrict thread_io] in *; destruct q as [r|o1 c]; try discriminate;
    cbn [thread_failed] in Hs; rewrite (strict_err _ _ _ Hq) in Hs; injection Hs as <- <-; cbn [x_s x_w x_fl goto set_m set_u set_g];
    (split; [reflexivity|split; [|split; [|splits; reflexivity]]]).
  - destruct Ht as (r & -> & _). destruct r as [?|[]]; discriminate.
  - cbn [wm] in Wm. unfold goto, set_m, set_u, set_g. cbn [x_w x_s x_m x_u x_g x_th x_fl]. apply goto_twice.
    eapply xinv_goto with (l := LDone OOther); eauto; rewrite ?Hx; try discriminate; try (cbn; lia);
      first [apply lset_same|reflexivity|intros; apply lset_other; assumption].
  - destruct Ht as (r & -> & _). destruct r as [?|[]]; discriminate.
  - destruct (Hul _ _ eq_refl) as (U1 & U2 & U3).
    unfold goto, set_m, set_u, set_g. cbn [x_w x_s x_m x_u x_g x_th x_fl]. apply goto_twice.
    eapply xinv_goto with (l := LDone OOther); eauto; rewrite ?Hx, ?U2, ?U3; try discriminate; try (cbn; lia);
      first [apply lset_same|reflexivity|intros; apply lset_other; assumption].
  - destruct Ht as (_ & _ & fd & r & Ho & _). eauto.
  - cbn [wm] in Wm. specialize (Hu eq_refl). unfold goto, set_m, set_u, set_g. cbn [x_w x_s x_m x_u x_g x_th x_fl]. apply goto_twice.
    eapply xinv_goto with (l := LDone OOther); eauto; rewrite ?Hx, ?Hu; try discriminate; try (cbn; lia);
      first [apply lset_same|reflexivity|intros; apply lset_other; assumption].
  - destruct Ht as (_ & fd & Ho & _). eauto.
  - specialize (Hu eq_refl). unfold goto, set_m, set_u, set_g. cbn [x_w x_s x_m x_u x_g x_th x_fl]. apply goto_twice.
    eapply xinv_goto with (l := LDone OOther); eauto; rewrite ?Hx, ?Hu; try discriminate; try (cbn; lia);
      first [apply lset_same|reflexivity|intros; apply lset_other; assumption].
  - destruct Ht as (_ & _ & fd & Ho & _). eauto.
  - specialize (Hu eq_refl). destruct (Hul _ _ eq_refl) as (U1 & U2 & U3).
    unfold goto, set_m, set_u, set_g. cbn [x_w x_s x_m x_u x_g x_th x_fl]. apply goto_twice.
    eapply xinv_goto with (l := LDone OOther); eauto; rewrite ?Hx, ?Hu, ?U2, ?U3; try discriminate; try (cbn; lia);
      first [apply lset_same|reflexivity|intros; apply lset_other; assumption].
Qed.
End Conc.
