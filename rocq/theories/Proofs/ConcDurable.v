(** Stopping the machine while several threads use the store. *)
From Verif Require Import Model.Bytes Model.Err Model.Field Model.Format Model.IO Model.BulkIO
  Model.Bucket Model.Pool Model.Recover Model.Create Model.Store Spec SpecLin SpecDurable Model.History Model.Crash
  Model.Events Model.Concurrent Model.ConcCrash
  Proofs.BytesFacts Proofs.IOFacts Proofs.PoolFacts Proofs.BucketFacts Proofs.BulkFacts Proofs.HashFacts
  Proofs.Table Proofs.Lookup Proofs.CommitFacts Proofs.CommitInv Proofs.CommitRun Proofs.StoreInv
  Proofs.SplitFacts Proofs.OpenFacts Proofs.HistoryFacts Proofs.LifeFacts Proofs.MapFacts Proofs.SafeFacts
  Proofs.CommitOps Proofs.CrashFacts Proofs.RecoverFacts Proofs.EventFacts
  Proofs.ConcFacts Proofs.ConcLook Proofs.ConcInv Proofs.ConcStep Proofs.ConcFlush Proofs.ConcTheorems.
Opaque loop.
Local Opaque lhead dat0 key0.

(** ** Programs in sequence *)
Lemma safe_bind_inv ordf (G : world -> Prop) {A B} (p : prog A) (f : A -> prog B) w S Q :
  safe ordf G (bind p f) w S Q -> safe ordf G p w S (fun a w' S' => safe ordf G (f a) w' S' Q).
Proof.
  revert w S. induction p as [a|o k IH]; intros w S Hs; simpl in *.
  - split; auto. eapply safe_here; eauto.
  - split; [tauto|]. apply IH. tauto.
Qed.
Lemma safe_ebind_inv ordf (G : world -> Prop) {A B} (p : prog (res A)) (f : A -> prog (res B)) w S Q :
  safe ordf G (ebind p f) w S Q ->
  safe ordf G p w S (fun r w' S' =>
    match r with Ok a => safe ordf G (f a) w' S' Q | Er er => (forall v, on_disk S' v -> G v) /\ Q (Er er) w' S' end).
Proof.
  intros Hs. apply safe_bind_inv in Hs. eapply safe_weaken; [exact Hs|auto|].
  intros [a|er] w' S' H; auto.
Qed.
Lemma safe_ebind_assoc ordf (G : world -> Prop) {A B C} (p : prog (res A)) (f : A -> prog (res B)) (g : B -> prog (res C)) w S Q :
  safe ordf G (ebind p (fun a => ebind (f a) g)) w S Q <-> safe ordf G (ebind (ebind p f) g) w S Q.
Proof.
  split; intros H.
  - apply safe_ebind, safe_ebind. apply safe_ebind_inv in H. eapply safe_weaken; [exact H|auto|].
    intros [a|er] w' S' X; [apply safe_ebind_inv in X; exact X|tauto].
  - apply safe_ebind. apply safe_ebind_inv, safe_ebind_inv in H. eapply safe_weaken; [exact H|auto|].
    intros [a|er] w' S' X; [apply safe_ebind; exact X|tauto].
Qed.
(** The same with something after the first part. *)
Lemma safe_ebind_under ordf (G : world -> Prop) {A B C} (p : prog (res A)) (f : A -> prog (res B)) (g : A -> prog (res C)) w S Q Q' :
  (forall a w S, safe ordf G (f a) w S Q -> safe ordf G (g a) w S Q') ->
  (forall er w S, Q (Er er) w S -> Q' (Er er) w S) ->
  safe ordf G (ebind p f) w S Q -> safe ordf G (ebind p g) w S Q'.
Proof.
  intros H1 H2 H. apply safe_ebind. apply safe_ebind_inv in H. eapply safe_weaken; [exact H|auto|].
  intros [a|er] w' S' X; auto. destruct X; auto.
Qed.

(** ** The specification *)
Lemma datomic_app m d o f h m1 d1 o1 f1 : datomic m d o f h m1 d1 o1 f1 ->
  forall h' m2 d2 o2 f2, datomic m1 d1 o1 f1 h' m2 d2 o2 f2 -> datomic m d o f (h ++ h') m2 d2 o2 f2.
Proof.
  induction 1; intros hh mm dd oo ff Hd; cbn [app]; auto.
  - apply da_call; auto.
  - eapply da_effect; eauto.
  - eapply da_ret; eauto.
  - apply da_begin; auto.
  - apply da_end; auto.
  - apply da_lost; auto.
  - apply da_kept; auto.
Qed.
Lemma atomic_datomic m f h m' f' d o : atomic m f h m' f' -> datomic m d o f (map DEv h) m' d o f'.
Proof.
  induction 1; cbn [map].
  - apply da_nil.
  - apply da_call; auto.
  - eapply da_effect; eauto.
  - eapply da_ret; eauto.
Qed.
Lemma dcalls_app h h' : dcalls (h ++ h') = dcalls h ++ dcalls h'.
Proof.
  induction h as [|ev h IH]; auto. destruct ev as [[t c|t r]| | |]; cbn [app dcalls]; auto. rewrite IH. auto.
Qed.
Lemma dcalls_map h : dcalls (map DEv h) = calls h.
Proof. induction h as [|ev h IH]; auto. destruct ev; cbn [map dcalls calls]; auto. rewrite IH. auto. Qed.

Lemma run_ebind_inv {A B} (q : prog (res A)) (f : A -> prog (res B)) w w' r : run (a <- q ;; f a) w = (w', Ok r) ->
  exists w1 a, run q w = (w1, Ok a) /\ run (f a) w1 = (w', Ok r).
Proof.
  rewrite run_ebind. destruct (run q w) as [w1 [a|er]]; [eauto|discriminate].
Qed.

Section Conc.
Variables (e : env) (p : dbp) (fp : err -> world -> Prop).
Hypothesis Hp : dbp_ok p.
Hypothesis Hit : iter_ok e.
Notation bs := (db_block_size p).
Notation ks := (db_key_size p).
Notation xinv := (xinv e p fp).
Notation vw := (vw e p).
Notation wend := (wend e p).
Notation phase := (phase e p fp).

Definition oksz (recs : list drec) (i b : N) : Prop :=
  blen (kvs recs) <= i /\ blen (enc_recs recs) <= b + 65544 * (blen (kvs recs) * blen (kvs recs)).

(** The saved state while a flush is going on. *)
Record old (recs : list drec) (T : list bent) (i b : N) : Prop := Old {
  ol_disk : disk e p recs T (wend recs T);
  ol_dat : blen (dat0 p recs) < 18446744073709551616;
  ol_key : blen (key0 e p T) < 18446744073709551616;
  ol_sz : oksz recs i b }.

(** What the flush leads to; it leads nowhere if it will end with an assertion. *)
Definition goal := option (list drec * list bent).
Record ahead_of (recs : list drec) (T : list bent) (m1 : smap) (i b : N) : Prop := Ahead {
  ah_disk : disk e p recs T (wend recs T);
  ah_sz : oksz recs i b;
  ah_map : forall k, m1 k = kfind (kvs recs) k }.
Definition ahead (g : goal) (m1 : smap) (i b : N) : Prop :=
  match g with Some (recs, T) => ahead_of recs T m1 i b | None => True end.

(** What may be found at a stop, when the flush leads to [g]. *)
Definition found (recs : list drec) (T : list bent) (g : goal) (v : world) : Prop :=
  before e p recs T v \/ match g with Some (ra, Ta) => settled (wend ra Ta) v | None => False end.
Definition ends (g : goal) {A} (r : res A) (w : world) (S : surv) : Prop :=
  match r, g with
  | Ok _, Some (ra, Ta) => w = wend ra Ta /\ settled_surv w S
  | Ok _, None => False
  | Er _, _ => True
  end.

Definition rest_key (s : store) : prog (res unit) :=
  commit_key bs (e_iter e (st_c1 s)) ;;; commit_end.

(** The rest of the flush. *)
Definition rest (s : store) (fl : fls) : prog (res unit) :=
  match fl with
  | FlIdle => pret tt
  | FlData q => st <- q ;; (commit_log e (cs_c0 st) ;;; (commit_key bs (e_iter e (cs_c1 st)) ;;; commit_end))
  | FlLog q => q ;;; rest_key s
  | FlWait => rest_key s
  | FlKey q => q
  end.

Record kinv (recs : list drec) (T : list bent) (A : list N) (c : cmach) (m d : smap) (o : option smap)
    (f : N -> lst) (i b : N) : Prop := KInv {
  ki_x : xinv recs T A (cm_x c) m f i b;
  ki_s : match x_fl (cm_x c) with
    | FlIdle => o = None /\ settled_surv (x_w (cm_x c)) (cm_disk c) /\ forall k, d k = kfind (kvs recs) k
    | fl => exists m1 rb Tb ga,
        o = Some m1 /\ (fl_failed fl = false -> forall k, m1 k = frozen recs (x_s (cm_x c)) k) /\
        (forall k, d k = kfind (kvs rb) k) /\ old rb Tb i b /\ ahead ga m1 i b /\
        safe log_in_order (found rb Tb ga) (rest (x_s (cm_x c)) fl) (x_w (cm_x c)) (cm_disk c) (ends ga)
    end }.

Lemma oksz_mono recs i b i' b' : oksz recs i b -> i <= i' -> b <= b' -> oksz recs i' b'.
Proof using Type. unfold oksz. lia. Qed.
Lemma old_mono recs T i b i' b' : old recs T i b -> i <= i' -> b <= b' -> old recs T i' b'.
Proof using Type. intros [A B C D] H1 H2. constructor; auto. eapply oksz_mono; eauto. Qed.

Lemma ahead_mono g m1 i b i' b' : ahead g m1 i b -> i <= i' -> b <= b' -> ahead g m1 i' b'.
Proof using Type.
  destruct g as [[recs T]|]; [|auto]. intros [A B C] H1 H2. constructor; auto. eapply oksz_mono; eauto.
Qed.

Lemma xinv_oksz recs T A x m f i b : xinv recs T A x m f i b -> oksz recs i b.
Proof using Type. intros H. destruct (xi_sz _ _ _ _ _ _ _ _ _ _ _ H) as [Z1 Z2]. unfold oksz. lia. Qed.

Lemma xinv_disk recs T A x m f i b : xinv recs T A x m f i b -> disk e p recs T (wend recs T).
Proof using Type.
  intros H. exact (disk_wlog e p recs T _ (Some []) (sh_disk _ _ _ _ _ _ (xi_sh _ _ _ _ _ _ _ _ _ _ _ H))).
Qed.

(** Where the flush leads to. *)
Lemma rest_run recs T A x m f i b : xinv recs T A x m f i b -> x_fl x <> FlIdle -> fl_failed (x_fl x) = false ->
  (exists recs' T', run (rest (x_s x) (x_fl x)) (x_w x) = (wend recs' T', Ok tt) /\
    disk e p recs' T' (wend recs' T') /\ oksz recs' i b /\ forall k, kfind (kvs recs') k = frozen recs (x_s x) k) \/
  exists w', run (rest (x_s x) (x_fl x)) (x_w x) = (w', Er EAssert).
Proof using Hp Hit.
  intros Hi Hn Hnf. pose proof (xi_ph _ _ _ _ _ _ _ _ _ _ _ Hi) as Hph. apply phase_off in Hph; [|exact Hnf].
  pose proof (xinv_disk _ _ _ _ _ _ _ _ Hi) as Hdk. pose proof (xinv_oksz _ _ _ _ _ _ _ _ Hi) as Hok.
  assert (Hlate : st_p0 (x_s x) = pool_empty -> forall k, kfind (kvs recs) k = frozen recs (x_s x) k).
  { intros E k. unfold frozen. rewrite E. reflexivity. }
  destruct (x_fl x) as [|q|q| |q]; cbn [phase0 rest] in *.
  - contradiction.
  - destruct Hph as (C1 & _ & _ & [(news & st & T' & s0 & w0 & Q1 & Q2 & Q3 & Q4 & Q5 & Q6)|(w' & Q6 & _)]).
    2: { right. exists w'. apply (run_ebind_er _ _ _ _ _ Q6). }
    left.
    pose proof (xi_sh _ _ _ _ _ _ _ _ _ _ _ Hi) as Hsh. set (s := x_s x) in *.
    set (recs' := recs ++ map rec_of (pl_map (st_p0 s)) ++ news) in *.
    exists recs', T'.
    pose proof (commit_rest e p Hp Hit _ _ _ _ _ _ _ Q1 Q4) as X. rewrite Q3 in X. fold recs' in X. cbv zeta in X.
    destruct X as (_ & R2 & R3 & R4).
    pose proof (cr_disk _ _ _ _ _ _ _ _ _ Q4) as Hd'. unfold cr_recs in Hd'. rewrite Q3 in Hd'. fold recs' in Hd'.
    destruct (sh_kh _ _ _ _ _ _ Hsh) as (B & HB).
    assert (HB0 : st_kh s0 = db_kh e p B) by (rewrite Q2; exact HB).
    pose proof (cr_spills _ _ _ _ _ _ _ _ _ Q4) as Hsp.
    pose proof (kvs_pool recs (pl_map (st_p0 s)) _ _ Hsp) as Hkv. fold recs' in Hkv.
    split; [|split; [|split]].
    + rewrite HB0 in R3. cbn [db_kh kh_block_size] in R3.
      rewrite (run_ebind_ok _ _ _ _ _ Q6). cbv beta.
      rewrite (run_ebind_ok _ _ _ _ _ R2), (run_ebind_ok _ _ _ _ _ R3). exact R4.
    + exact (disk_wlog e p recs' T' _ (Some []) Hd').
    + assert (Hbs : kh_block_size (st_kh s0) <= 65535 /\ 1 <= bucket_capacity (kh_block_size (st_kh s0))).
      { rewrite HB0. cbn [db_kh kh_block_size]. split; [apply p_bs; auto|apply p_cap; auto]. }
      pose proof (blen_spills _ _ (proj1 Hbs) (proj2 Hbs) Hsp) as Hsz.
      destruct (xi_sz _ _ _ _ _ _ _ _ _ _ _ Hi) as [Z1 Z2]. fold s in Z1, Z2.
      unfold oksz. rewrite Hkv, blen_app, blen_map. unfold recs'. rewrite !enc_recs_app, !blen_app, blen_recs.
      set (c := blen (kvs recs)) in *. set (a := blen (pl_map (st_p0 s))) in *.
      set (nn := blen news) in *. clear - Q5 Hsz Z1 Z2. split; [lia|]. nia.
    + intros k. rewrite Hkv. apply frozen_app. apply nodup_r with (1 := sh_nd _ _ _ _ _ _ Hsh).
  - destruct Hph as (P0 & Q6 & _). left. exists recs, T. split; [exact Q6|]. splits; auto.
  - destruct Hph as (P0 & Q6). left. exists recs, T. split; [exact Q6|]. splits; auto.
  - destruct Hph as (P0 & Q6 & _). left. exists recs, T. split; [exact Q6|]. splits; auto.
Qed.

(** ** A stop *)
Lemma reopened_old recs T v i b : old recs T i b -> before e p recs T v -> reopened e p recs T v.
Proof using Hp.
  intros [Hd F1 F2 _] Hv.
  destruct (open_before e p Hp recs T _ Hd F1 F2 v Hv) as (A & B & C).
  destruct (recover_before e p Hp recs T _ Hd F1 F2 v (durable v) Hv) as [D _]; [auto|].
  constructor; auto. pose proof (safe_run _ _ _ _ _ _ _ _ C A) as (S1 & S2 & S3).
  unfold settled_surv. splits; auto.
Qed.

(** What is found after a stop and possibly interrupted recoveries. *)
Lemma stop_found recs T A c m d o f i b w1 w2 :
  kinv recs T A c m d o f i b ->
  on_disk (cm_disk c) w1 -> interrupted log_in_order e w1 w2 ->
  exists recs' T' d', reopened e p recs' T' w2 /\ oksz recs' i b /\ (forall k, d' k = kfind (kvs recs') k) /\
    (d' = d \/ o = Some d').
Proof using Hp Hit.
  intros [Hi Hs] Hd Hint.
  assert (Hrest : forall recs' T', disk e p recs' T' (wend recs' T') -> settled (wend recs' T') w1 ->
    reopened e p recs' T' w2).
  { intros recs' T' Hdk Hst. eapply reopened_rest; eauto. eapply (interrupted_rest e p Hp _ _ _ Hdk); [|exact Hint].
    eapply settled_at_rest; eauto. }
  destruct (x_fl (cm_x c)) as [|q|q| |q] eqn:Hfl.
  1: { destruct Hs as (-> & HS & Hdk). pose proof (xi_ph _ _ _ _ _ _ _ _ _ _ _ Hi) as Hph. rewrite Hfl in Hph.
    destruct Hph as (_ & _ & W0). exists recs, T, d.
    split; [|split; [eapply xinv_oksz; eauto|split; [exact Hdk|left; reflexivity]]].
    apply Hrest; [eapply xinv_disk; eauto|]. rewrite <- W0. eapply settled_on_disk; eauto. }
  all: destruct Hs as (m1 & rb & Tb & ga & -> & _ & Hdk & Ho & Hah & Hsafe).
  all: pose proof (safe_here _ _ _ _ _ _ Hsafe _ Hd) as [Hv|Hv];
    [|destruct ga as [[ra Ta]|]; [destruct Hah as [Hd' Hz Hk]|contradiction]].
  all: first [
    exists rb, Tb, d; splits; [|apply (ol_sz _ _ _ _ Ho)|exact Hdk|left; reflexivity];
      eapply reopened_old; [exact Ho|];
      exact (interrupted_before e p Hp rb Tb _ (ol_disk _ _ _ _ Ho) (ol_dat _ _ _ _ Ho) (ol_key _ _ _ _ Ho) _ _ Hv Hint)
    | exists ra, Ta, m1; splits; [|exact Hz|exact Hk|right; reflexivity]; apply Hrest; auto ].
Qed.

Lemma reopened_kinv recs T w2 w3 s3 d i b :
  reopened e p recs T w2 -> run (store_open e) w2 = (w3, Ok s3) -> oksz recs i b -> (forall k, d k = kfind (kvs recs) k) ->
  kinv recs T [] (CMach (xinit s3 w3) (srun log_in_order (store_open e) w2 (durable w2))) d d None (fun _ => LIdle) i b.
Proof using Hp.
  intros [_ R2 R3 R4] Ho Hz Hd. rewrite Ho in R2. injection R2 as -> ->.
  constructor; cbn [cm_x cm_disk xinit x_fl x_w]; [|splits; auto].
  eapply xinit_inv; [exact R3| |].
  - destruct Hz as [Z1 Z2]. unfold szinv. cbn [s_done st_p1 pool_empty pl_map pbytes]. rewrite blen_nil. lia.
  - intros k. rewrite Hd. reflexivity.
Qed.

(** ** Transitions *)
Definition kept (x x' : xst) : Prop :=
  x_w x' = x_w x /\ x_fl x' = x_fl x /\ st_p0 (x_s x') = st_p0 (x_s x) /\ st_c1 (x_s x') = st_c1 (x_s x).
Lemma fetch_keeps x t k : kept x (fetch_section e x t k).
Proof using Type.
  unfold fetch_section. cbv zeta. destruct (pool_find (st_p1 (x_s x)) k); [repeat split|].
  destruct (pool_find (st_p0 (x_s x)) k); [repeat split|].
  destruct (cache_find (st_c1 (x_s x)) _); repeat split.
Qed.
Lemma insert_keeps x t k v : kept x (insert_section e x t k v).
Proof using Type.
  unfold insert_section. cbv zeta. destruct (pool_find (st_p1 (x_s x)) k); [repeat split|].
  destruct (pool_find (st_p0 (x_s x)) k); [repeat split|].
  destruct (cache_find (st_c1 (x_s x)) _); repeat split.
Qed.
Lemma thread_keeps x t h x' : thread_step e x t = Some (h, x') ->
  (forall o, thread_io (x_th x t) = Some o -> fst (exec o (x_w x)) = x_w x) ->
  x_w x' = x_w x /\ x_fl x' = x_fl x /\ st_p0 (x_s x') = st_p0 (x_s x) /\ st_c1 (x_s x') = st_c1 (x_s x).
Proof using Type.
  unfold thread_step. cbv zeta.
  destruct (x_th x t) as [|k|n b q|n g q|k v|k v|k v n b q|k v q|k v n g q|k v|o]; cbn [thread_io];
    try discriminate;
    try (destruct q as [[[|]|]|o c]); try (destruct q as [r|o c]);
    try (destruct (x_u x); try discriminate); try (destruct (x_m x =? 0); try discriminate);
    cbn [next_op]; try (destruct (exec o (x_w x)) as [w r] eqn:E);
    intros Hs; injection Hs as <- <-; intros Hio; try (splits; reflexivity);
    try (specialize (Hio _ eq_refl); rewrite E in Hio; cbn [fst] in Hio; subst w; splits; reflexivity).
  all: first [apply fetch_keeps|apply insert_keeps].
Qed.

Lemma thread_pure recs T A x m f i b t o : xinv recs T A x m f i b -> thread_io (x_th x t) = Some o -> io_pure o.
Proof using Type.
  intros Hi Ho. pose proof (xi_th _ _ _ _ _ _ _ _ _ _ _ Hi t) as Ht.
  assert (X : forall {B} kr (q : prog B) r, next_op q = Some o -> reads kr (x_w x) q r -> io_pure o).
  { intros B kr [r0|o0 k] r E Hr; [discriminate|]. injection E as <-. apply reads_inv in Hr.
    destruct Hr as (ff & off & len & r1 & -> & _). exact I. }
  destruct (x_th x t) as [|k|n c q|n g q|k v|k v|k v n c q|k v q|k v n g q|k v|o1]; cbn [thread_io tok] in *; try discriminate.
  - destruct Ht as (r & _ & Hr & _). eauto.
  - destruct Ht as (r & _ & Hr & _). eauto.
  - destruct Ht as (_ & _ & fd & r & _ & Hr & _). eauto.
  - destruct Ht as (_ & fd & _ & Hr). eauto.
  - destruct Ht as (_ & _ & fd & _ & Hr). eauto.
Qed.

Lemma thread_kinv recs T A x S m d o f i b t h x' :
  kinv recs T A (CMach x S) m d o f i b -> thread_step e x t = Some (h, x') ->
  exists m' f', atomic m f h m' f' /\
    kinv recs T A (CMach x' (io_disk (thread_io (x_th x t)) (x_w x) S)) m' d o f' i b.
Proof using Hp.
  intros [Hi Hs] Ht. cbn [cm_x cm_disk] in *.
  destruct (thread_sim e p fp Hp _ _ _ _ _ _ _ _ _ _ _ Hi Ht) as (m' & f' & H1 & H2).
  exists m', f'. split; [exact H1|].
  assert (Hpure : forall o, thread_io (x_th x t) = Some o -> io_pure o) by (intros o0; eapply thread_pure; eauto).
  assert (HS : io_disk (thread_io (x_th x t)) (x_w x) S = S).
  { unfold io_disk. destruct (thread_io (x_th x t)) as [o0|]; auto. apply pure_sexec; auto. }
  rewrite HS. destruct (thread_keeps _ _ _ _ Ht) as (K1 & K2 & K3 & K4).
  { intros o0 Ho. apply pure_exec; auto. }
  constructor; cbn [cm_x cm_disk]; [exact H2|]. rewrite K1, K2.
  assert (Hfz : forall k, frozen recs (x_s x') k = frozen recs (x_s x) k) by (intros k; unfold frozen; rewrite K3; auto).
  assert (Hrs : forall fl, rest (x_s x') fl = rest (x_s x) fl) by (intros fl; unfold rest, rest_key; rewrite K4; auto).
  destruct (x_fl x); auto; destruct Hs as (m1 & rb & Tb & ga & H3 & H4 & H5); exists m1, rb, Tb, ga; rewrite Hrs;
    (split; [exact H3|split; [|exact H5]]; intros X k; rewrite Hfz; auto).
Qed.

Definition whole (s : store) : fls := FlData (commit_begin e (st_kh s) ;;;
  commit_data e (st_kh s) (st_thresh s) (st_frac s) (st_buckets s) (st_modulus s) (pl_map (st_p1 s))).

Lemma begin_safe recs T s w S ga :
  sinv e p recs T s w -> settled_surv w S ->
  (forall w1, run (rest (swap_pools s) (whole s)) w = (w1, Ok tt) -> exists ra Ta, ga = Some (ra, Ta) /\ w1 = wend ra Ta) ->
  safe log_in_order (found recs T ga) (rest (swap_pools s) (whole s)) w S (ends ga).
Proof using Hp Hit.
  intros Hi HS Hga.
  pose proof (safe_with_run _ _ _ _ _ _ (commit_safe e p Hp Hit recs T s w S Hi HS)) as H.
  destruct (si_kh _ _ _ _ _ _ Hi) as (B & Hkh).
  assert (Hbs : kh_block_size (st_kh s) = bs) by (rewrite Hkh; reflexivity).
  assert (Hr : forall w1 s1, run (commit e s) w = (w1, Ok s1) -> run (rest (swap_pools s) (whole s)) w = (w1, Ok tt)).
  { intros w1 s1. unfold whole. cbn [rest]. unfold commit. cbv zeta. rewrite Hbs. intros Hr.
    apply run_ebind_inv in Hr as (wa & [] & Ra & Hr). apply run_ebind_inv in Hr as (wb & st & Rb & Hr).
    apply run_ebind_inv in Hr as (wc & [] & Rc & Hr). apply run_ebind_inv in Hr as (wd & [] & Rd & Hr).
    apply run_ebind_inv in Hr as (we & [] & Re & Hr). injection Hr as <- _.
    assert (X : run (commit_begin e (st_kh s) ;;; commit_data e (st_kh s) (st_thresh s) (st_frac s) (st_buckets s) (st_modulus s) (pl_map (st_p1 s))) w = (wb, Ok st)).
    { rewrite (run_ebind_ok _ _ _ _ _ Ra). exact Rb. }
    rewrite (run_ebind_ok _ _ _ _ _ X), (run_ebind_ok _ _ _ _ _ Rc), (run_ebind_ok _ _ _ _ _ Rd). exact Re. }
  assert (H' : safe log_in_order (found recs T ga) (commit e s) w S (ends ga)).
  { eapply safe_weaken; [exact H| |].
    - intros v [Hv|(w1 & s1 & Hr1 & Hv)]; [left; exact Hv|]. right.
      destruct (Hga _ (Hr _ _ Hr1)) as (ra & Ta & -> & <-). exact Hv.
    - cbv beta. intros r w1 S1 (H1 & H2 & _). unfold ends. destruct r as [s1|]; [|exact I].
      destruct (Hga _ (Hr _ _ H2)) as (ra & Ta & -> & <-). split; [reflexivity|exact H1]. }
  clear H. unfold whole. cbn [rest]. apply safe_ebind_assoc.
  unfold commit in H'. cbv zeta in H'. rewrite Hbs in H'.
  revert H'. apply safe_ebind_under; [|intros; exact I]. intros _ w1 S1.
  apply safe_ebind_under; [|intros; exact I]. intros st w2 S2.
  apply safe_ebind_under; [|intros; exact I]. intros _ w3 S3.
  apply safe_ebind_under; [|intros; exact I]. intros _ w4 S4 H.
  apply safe_ebind_inv in H. eapply safe_weaken; [exact H|auto|].
  intros [a|er] w5 S5 X; [|exact I]. cbn [safe pret] in X. exact (proj2 X).
Qed.

(** The flush makes a file operation. *)
Lemma rest_do s s' o c fl fl' w S G Q :
  match fl with
  | FlData q => exists k, q = Do o k /\ fl' = FlData (k c)
  | FlLog q => exists k, q = Do o k /\ fl' = FlLog (k c)
  | FlKey q => exists k, q = Do o k /\ fl' = FlKey (k c)
  | _ => False
  end -> st_c1 s' = st_c1 s -> snd (exec o w) = c ->
  safe log_in_order G (rest s fl) w S Q ->
  safe log_in_order G (rest s' fl') (fst (exec o w)) (sexec log_in_order o w S) Q.
Proof using Type.
  intros Hfl Hc1 Hc H. unfold rest_key in *.
  destruct fl as [|q|q| |q]; try contradiction; destruct Hfl as (k & -> & ->);
    unfold rest, rest_key in *; rewrite ?Hc1; unfold ebind in *; cbn [bind safe] in H; rewrite Hc in H; apply H.
Qed.

Lemma flush_kinv recs T A x S m d o f i b x' :
  kinv recs T A (CMach x S) m d o f i b -> (too_long i b -> forall w, near_limit w -> fp EAssert w) -> young p -> flush_step e x = Some x' ->
  exists recs' T' d' o',
    kinv recs' T' A (CMach x' (io_disk (flush_io (x_fl x)) (x_w x) S)) m d' o' f i b /\
    datomic m d o f (flush_seen x x') m d' o' f.
Proof using Hp Hit.
  intros [Hi Hs] Hl Hf. cbn [cm_x cm_disk] in *. unfold flush_step, flush_seen.
  destruct (x_fl x) as [|q|q| |q] eqn:Hfl; cbn [flush_io io_disk].
  - destruct Hs as (-> & HS & Hd). pose proof (xi_ph _ _ _ _ _ _ _ _ _ _ _ Hi) as Hph. rewrite Hfl in Hph.
    destruct Hph as (P0 & C1 & W0).
    destruct (x_m x =? 0); [|discriminate].
    destruct (pool_is_empty (st_p1 (x_s x))) eqn:He; intros E; injection E as <-.
    + rewrite Hfl. exists recs, T, m, None. split.
      * constructor; cbn [cm_x cm_disk]; [exact Hi|]. rewrite Hfl. splits; auto.
        intros k. rewrite (xi_abs _ _ _ _ _ _ _ _ _ _ _ Hi). unfold xabs.
        rewrite P0. change (pool_find pool_empty k) with (@None pelem).
        destruct (st_p1 (x_s x)) as [l n]; unfold pool_is_empty in He; cbn [pl_map] in He.
        destruct l; [reflexivity|discriminate].
      * apply da_begin. apply da_end. apply da_nil.
    + pose proof (begin_sim e p fp Hp Hit _ _ _ _ _ _ _ _ Hi Hfl Hl) as Hi'.
      pose proof (xi_sh _ _ _ _ _ _ _ _ _ _ _ Hi) as Hsh. rewrite W0 in Hsh.
      pose proof (idle_sinv _ _ _ _ _ Hsh P0 C1) as Hsi. rewrite <- W0 in Hsi.
      exists recs, T, d, (Some m). split; [|apply da_begin, da_nil].
      constructor; cbn [cm_x cm_disk]; [exact Hi'|]. cbn [set_fl set_s x_fl x_w x_s].
      assert (Hfz : forall k, m k = frozen recs (swap_pools (x_s x)) k).
      { intros k. rewrite (xi_abs _ _ _ _ _ _ _ _ _ _ _ Hi). unfold xabs, frozen, swap_pools. cbn [st_p0].
        rewrite P0. change (pool_find pool_empty k) with (@None pelem).
        destruct (pool_find (st_p1 (x_s x)) k); auto. }
      assert (Hol : old recs T i b).
      { destruct (fits_before _ _ Hp _ _ _ _ Hsi Hf) as [F1 F2]. constructor; auto.
        - eapply xinv_disk; eauto.
        - eapply xinv_oksz; eauto. }
      assert (Hga : exists ga, ahead ga m i b /\ forall w1,
        run (rest (swap_pools (x_s x)) (whole (x_s x))) (x_w x) = (w1, Ok tt) -> exists ra Ta, ga = Some (ra, Ta) /\ w1 = wend ra Ta).
      { destruct (rest_run _ _ _ _ _ _ _ _ Hi') as [(ra & Ta & Hr & Ha1 & Ha2 & Ha3)|(w' & Hr)]; [discriminate|reflexivity|..];
          cbn [set_fl set_s x_fl x_w x_s] in Hr; unfold whole; rewrite Hr.
        - exists (Some (ra, Ta)). split; [|intros w1 E; injection E as <-; eauto].
          constructor; auto. intros k. cbn [set_fl set_s x_s] in Ha3. rewrite Hfz, Ha3. reflexivity.
        - exists None. split; [exact I|discriminate]. }
      destruct Hga as (ga & Hah & Hga). exists m, recs, T, ga. splits; auto.
      exact (begin_safe _ _ _ _ _ ga Hsi HS Hga).
  - destruct Hs as (m1 & rb & Tb & ga & -> & Hm1 & Hd & Ho & Hah & Hsafe).
    destruct q as [[st|er]|op c]; [|discriminate|]; cbn [next_op io_disk].
    + destruct (N.eqb_spec (x_m x) 0) as [Hm0|]; [|discriminate]. intros E; injection E as <-.
      destruct (publish_sim e p fp Hp Hit _ _ _ _ _ _ _ _ _ Hi Hfl Hm0) as (recs' & T' & Hi' & Hk).
      exists recs', T', d, (Some m1). split; [|apply da_nil].
      constructor; cbn [cm_x cm_disk]; [exact Hi'|]. cbn [set_fl set_s set_g x_fl x_w x_s].
      exists m1, rb, Tb, ga. split; [reflexivity|]. split; [|split; [exact Hd|split; [exact Ho|split; [exact Hah|]]]].
      * intros _ k. rewrite (Hm1 eq_refl). unfold frozen at 2. unfold publish. cbn [st_p0].
        change (pool_find pool_empty k) with (@None pelem). cbv iota. rewrite Hk. reflexivity.
      * exact Hsafe.
    + pose proof (data_sim e p fp _ _ _ _ _ _ _ _ _ _ Hi Hfl) as X.
      destruct (exec op (x_w x)) as [w r] eqn:Ex. intros E; injection E as <-. cbv beta iota in X.
      exists recs, T, d, (Some m1). split; [|apply da_nil].
      constructor; cbn [cm_x cm_disk]; [exact X|]. cbn [set_fl set_w x_fl x_w x_s].
      exists m1, rb, Tb, ga. split; [reflexivity|]. split; [intros _; exact (Hm1 eq_refl)|split; [exact Hd|split; [exact Ho|split; [exact Hah|]]]].
      replace w with (fst (exec op (x_w x))) by (rewrite Ex; reflexivity).
      eapply rest_do; [|reflexivity| |exact Hsafe]; [exists c; split; reflexivity|rewrite Ex; reflexivity].
  - destruct Hs as (m1 & rb & Tb & ga & -> & Hm1 & Hd & Ho & Hah & Hsafe).
    destruct q as [[u|er]|op c]; [|discriminate|]; cbn [next_op io_disk].
    + intros E; injection E as <-. exists recs, T, d, (Some m1). split; [|apply da_nil].
      constructor; cbn [cm_x cm_disk]; [eapply wait_sim; eauto|]. cbn [set_fl x_fl x_w x_s].
      exists m1, rb, Tb, ga. split; [reflexivity|]. split; [intros _; exact (Hm1 eq_refl)|split; [exact Hd|split; [exact Ho|split; [exact Hah|]]]].
      exact Hsafe.
    + pose proof (log_sim e p fp _ _ _ _ _ _ _ _ _ _ Hi Hfl) as X.
      destruct (exec op (x_w x)) as [w r] eqn:Ex. intros E; injection E as <-. cbv beta iota in X.
      exists recs, T, d, (Some m1). split; [|apply da_nil].
      constructor; cbn [cm_x cm_disk]; [exact X|]. cbn [set_fl set_w x_fl x_w x_s].
      exists m1, rb, Tb, ga. split; [reflexivity|]. split; [intros _; exact (Hm1 eq_refl)|split; [exact Hd|split; [exact Ho|split; [exact Hah|]]]].
      replace w with (fst (exec op (x_w x))) by (rewrite Ex; reflexivity).
      eapply rest_do; [|reflexivity| |exact Hsafe]; [exists c; split; reflexivity|rewrite Ex; reflexivity].
  - destruct Hs as (m1 & rb & Tb & ga & -> & Hm1 & Hd & Ho & Hah & Hsafe).
    destruct (g_finished (x_g x)) eqn:Hg; [|discriminate]. intros E; injection E as <-.
    exists recs, T, d, (Some m1). split; [|apply da_nil].
    constructor; cbn [cm_x cm_disk]; [apply finish_sim; auto|]. cbn [set_fl x_fl x_w x_s].
    exists m1, rb, Tb, ga. split; [reflexivity|]. split; [intros _; exact (Hm1 eq_refl)|split; [exact Hd|split; [exact Ho|split; [exact Hah|]]]].
    destruct (sh_kh _ _ _ _ _ _ (xi_sh _ _ _ _ _ _ _ _ _ _ _ Hi)) as (B & HB). rewrite HB. exact Hsafe.
  - destruct Hs as (m1 & rb & Tb & ga & -> & Hm1 & Hd & Ho & Hah & Hsafe).
    destruct q as [[u|er]|op c]; [|discriminate|]; cbn [next_op io_disk].
    + destruct (N.eqb_spec (x_m x) 0) as [Hm0|]; [|discriminate]. intros E; injection E as <-.
      exists recs, T, m1, None. split; [|apply da_end, da_nil].
      constructor; cbn [cm_x cm_disk]; [eapply end_sim; eauto|]. cbn [set_fl set_s x_fl x_w x_s].
      cbn [rest safe ends] in Hsafe. splits; auto; [destruct ga as [[ra Ta]|]; [apply Hsafe|destruct Hsafe as [_ []]]|].
      intros k. rewrite (Hm1 eq_refl). pose proof (xi_ph _ _ _ _ _ _ _ _ _ _ _ Hi) as Hph. rewrite Hfl in Hph.
      destruct Hph as (P0 & _). unfold frozen. rewrite P0. reflexivity.
    + pose proof (key_sim e p fp Hp _ _ _ _ _ _ _ _ _ _ Hi Hfl) as X.
      destruct (exec op (x_w x)) as [w r] eqn:Ex. intros E; injection E as <-. cbv beta iota in X.
      exists recs, T, d, (Some m1). split; [|apply da_nil].
      constructor; cbn [cm_x cm_disk]; [exact X|]. cbn [set_fl set_w x_fl x_w x_s].
      exists m1, rb, Tb, ga. split; [reflexivity|]. split; [intros _; exact (Hm1 eq_refl)|split; [exact Hd|split; [exact Ho|split; [exact Hah|]]]].
      replace w with (fst (exec op (x_w x))) by (rewrite Ex; reflexivity).
      eapply rest_do; [|reflexivity| |exact Hsafe]; [exists c; split; reflexivity|rewrite Ex; reflexivity].
Qed.

Lemma call_kinv recs T A x S m d o f i b t c s :
  kinv recs T A (CMach x S) m d o f i b -> x_th x t = CIdle -> valid_op (kh_key_size (st_kh (x_s x))) c ->
  call_state c = Some s ->
  exists A', atomic m f [HCall t c] m (lset f t (LPending c)) /\
    kinv recs T A' (CMach (goto x t s) S) m d o (lset f t (LPending c)) (i + op_inserts c) (b + op_bytes c).
Proof using Type.
  intros [Hi Hs] Hx Hv Hc. cbn [cm_x cm_disk] in *.
  destruct (call_sim e p fp _ _ _ _ _ _ _ _ _ _ _ Hi Hx Hv Hc) as (A' & H1 & H2).
  exists A'. split; [exact H1|]. constructor; cbn [cm_x cm_disk]; [exact H2|]. cbn [goto x_fl x_w x_s].
  destruct (x_fl x); auto; destruct Hs as (m1 & rb & Tb & ga & H3 & H4 & H5 & H6 & H7 & H8); exists m1, rb, Tb, ga;
    (split; [exact H3|split; [exact H4|split; [exact H5|split; [eapply old_mono; eauto; lia|split; [eapply ahead_mono; eauto; lia|exact H8]]]]]).
Qed.

(** An execution, seen from outside, is one with atomic calls. *)
Lemma cexec_inv c h c' : cexec e c h c' -> forall recs T A m d o f i b,
  kinv recs T A c m d o f i b -> young p ->
  (too_long (i + inserts (dcalls h)) (b + insert_bytes (dcalls h)) -> forall w, near_limit w -> fp EAssert w) ->
  exists recs' T' A' m' d' o' f', datomic m d o f h m' d' o' f' /\
    kinv recs' T' A' c' m' d' o' f' (i + inserts (dcalls h)) (b + insert_bytes (dcalls h)).
Proof using Hp Hit.
  induction 1 as [c|c h c1 h' c2 Hx IH Hs]; intros recs T A m d o f i b Hi Hfit Hl.
  - cbn [dcalls inserts insert_bytes] in *. rewrite !N.add_0_r in *. exists recs, T, A, m, d, o, f. split; [constructor|auto].
  - rewrite dcalls_app, inserts_app, insert_bytes_app in *.
    destruct (IH recs T A m d o f i b Hi Hfit) as (recs1 & T1 & A1 & m1 & d1 & o1 & f1 & H1 & Hi1).
    { intros X. apply Hl. eapply too_long_mono; [exact X| |]; lia. }
    clear IH. inversion Hs as [x S t c0 s Ht Hv Hc E1 E2|x S t h2 x3 Ht E1 E2|x S x3 Hf E1 E2|
      x S w1 w2 w3 s3 Hd Hint Ho E1 E2]; subst.
    + destruct (call_kinv _ _ _ _ _ _ _ _ _ _ _ _ _ _ Hi1 Ht Hv Hc) as (A' & H2 & H3).
      exists recs1, T1, A', m1, d1, o1. eexists. split; [eapply datomic_app; [exact H1|exact (atomic_datomic _ _ _ _ _ _ _ H2)]|].
      cbn [dcalls inserts insert_bytes]. rewrite !N.add_0_r, !N.add_assoc. exact H3.
    + destruct (thread_kinv _ _ _ _ _ _ _ _ _ _ _ _ _ _ Hi1 Ht) as (m2 & f2 & H2 & H3).
      rewrite dcalls_map. assert (Hc0 : calls h2 = []).
      { destruct (thread_step_calls _ _ _ _ _ Ht) as [->|(o0 & ->)]; auto. }
      rewrite Hc0. cbn [inserts insert_bytes]. rewrite !N.add_0_r.
      exists recs1, T1, A1, m2, d1, o1, f2. split; auto. eapply datomic_app; [exact H1|apply atomic_datomic; exact H2].
    + assert (Hl1 : too_long (i + inserts (dcalls h)) (b + insert_bytes (dcalls h)) -> forall w, near_limit w -> fp EAssert w).
      { intros X. apply Hl. eapply too_long_mono; [exact X| |]; lia. }
      destruct (flush_kinv _ _ _ _ _ _ _ _ _ _ _ _ Hi1 Hl1 Hfit Hf) as (r2 & T2 & d2 & o2 & H3 & H2).
      assert (Hc0 : dcalls (flush_seen x x3) = []).
      { unfold flush_seen. destruct (x_fl x), (x_fl x3); reflexivity. }
      rewrite Hc0. cbn [inserts insert_bytes]. rewrite !N.add_0_r.
      exists r2, T2, A1, m1, d2, o2, f1. split; auto. eapply datomic_app; eauto.
    + destruct (stop_found _ _ _ _ _ _ _ _ _ _ _ _ Hi1 Hd Hint) as (r2 & T2 & d2 & R & Hz & Hk & Hor).
      cbn [dcalls inserts insert_bytes]. rewrite !N.add_0_r.
      exists r2, T2, [], d2, d2, None, (fun _ => LIdle). split; [|eapply reopened_kinv; eauto].
      eapply datomic_app; [exact H1|]. destruct Hor as [->| ->]; [apply da_lost|apply da_kept]; apply da_nil.
Qed.
End Conc.

Lemma use_inv e a h c : good_args a -> iter_ok e -> durable_use e a h c ->
  exists recs T A m d o f, datomic sempty sempty None (fun _ => LIdle) h m d o f /\
    kinv e (dbp_of a) (overflowed (dcalls h)) recs T A c m d o f (inserts (dcalls h)) (insert_bytes (dcalls h)).
Proof.
  intros Ha Hit (M & Hst & Hx). destruct (good_args_ok a Ha) as (Hp & _).
  destruct (started_ok _ _ _ Ha Hit Hst) as [(Hi & HS & _) He].
  refine (cexec_inv e (dbp_of a) _ Hp Hit _ _ _ Hx [] [([], 0)] [] sempty sempty None (fun _ => LIdle) 0 0 _ (young_of a) (overflowed_long _)).
  constructor; cbn [cm_x cm_disk xinit x_fl x_w]; [|splits; auto].
  eapply xinit_inv; [exact Hi| |].
  - unfold szinv. rewrite He. split; reflexivity || (vm_compute; discriminate).
  - intros k. unfold abs, pool_find. rewrite He. reflexivity.
Qed.

(** Whenever the machine stops, the database can be opened. *)
Lemma use_reopens e a h c w1 w2 : good_args a -> iter_ok e -> durable_use e a h c ->
  on_disk (cm_disk c) w1 -> interrupted log_in_order e w1 w2 ->
  (exists w3, run (recover e) w2 = (w3, Ok tt)) /\ exists w3 s3, run (store_open e) w2 = (w3, Ok s3).
Proof.
  intros Ha Hit Hu Hd Hint. destruct (good_args_ok a Ha) as (Hp & _).
  destruct (use_inv _ _ _ _ Ha Hit Hu) as (recs & T & A & m & d & o & f & _ & Hk).
  destruct (stop_found e (dbp_of a) _ Hp Hit _ _ _ _ _ _ _ _ _ _ _ _ Hk Hd Hint) as (r2 & T2 & d2 & [R1 R2 _ _] & _).
  split; eauto.
Qed.
