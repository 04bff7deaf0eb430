(** The invariant of a store used by several threads. *)
From Verif Require Import Model.Bytes Model.Err Model.Field Model.Format Model.IO Model.BulkIO
  Model.Bucket Model.Pool Model.Recover Model.Create Model.Store Spec SpecLin Model.History Model.Crash
  Model.Concurrent
  Proofs.BytesFacts Proofs.IOFacts Proofs.PoolFacts Proofs.BucketFacts Proofs.BulkFacts Proofs.HashFacts
  Proofs.Table Proofs.Lookup Proofs.CommitFacts Proofs.CommitInv Proofs.CommitRun Proofs.StoreInv
  Proofs.HistoryFacts Proofs.SafeFacts Proofs.CommitOps Proofs.CrashFacts Proofs.ConcFacts Proofs.ConcLook.
Opaque loop.

(** ** Weights of threads *)
Definition b2n (b : bool) : N := if b then 1 else 0.
(** Shared owner of m_. *)
Definition wm (c : cth) : N := match c with CFetchC _ _ _ | CInsC _ _ _ _ _ => 1 | _ => 0 end.
(** Owner of u_. *)
Definition wu (c : cth) : N :=
  match c with
  | CInsLocked _ _ | CInsC _ _ _ _ _ | CInsD _ _ _ | CInsK _ _ _ _ _ | CInsGo _ _ => 1
  | _ => 0
  end.
Definition wc (gen : N) (c : cth) : N :=
  match hold c with Some (_, g) => if g =? gen then 1 else 0 | None => 0 end.
Definition wp (gen : N) (c : cth) : N :=
  match hold c with Some (_, g) => if g =? gen then 0 else 1 | None => 0 end.
(** Inserts that may still take effect: their number and bytes. *)
Definition pend (c : cth) : option (bytes * bytes) :=
  match c with
  | CInsert k v | CInsLocked k v | CInsC k v _ _ _ | CInsD k v _ | CInsK k v _ _ _ | CInsGo k v => Some (k, v)
  | _ => None
  end.
Definition pn (c : cth) : N := match pend c with Some _ => 1 | None => 0 end.
Definition pb (c : cth) : N := match pend c with Some (k, v) => 6 + blen k + blen v | None => 0 end.

Section Conc.
Variables (e : env) (p : dbp) (fp : err -> world -> Prop).
Hypothesis Hp : dbp_ok p.
Hypothesis Hit : iter_ok e.
Notation bs := (db_block_size p).
Notation ks := (db_key_size p).
Notation vw := (vw e p).

Definition batch (q : pool) : Prop :=
  Forall (fun x => pe_hash x = hash (e_hasher e) (db_salt p) (pe_key x) /\
    blen (pe_key x) = ks /\ 0 < blen (pe_data x) /\ blen (pe_data x) < 4294967296) (pl_map q).

(** ** The store and the files: [recs] and [T] are what readers see besides the pools *)
Record shared (recs : list drec) (T : list bent) (s : store) (w : world) : Prop := Shared {
  sh_disk : disk e p recs T (vw recs T);
  sh_dat : same nokey (vw recs T) w;
  sh_key : forall n, n < blen T -> cache_find (st_c1 s) n = None -> same (blk bs n) (vw recs T) w;
  sh_c1 : forall n b, cache_find (st_c1 s) n = Some b ->
    n < blen T /\ bk_rep bs (bk_of_blob b) (fst (nthN T n b0)) (snd (nthN T n b0));
  sh_nd1 : NoDup (map fst (st_c1 s));
  sh_kh : exists B, st_kh s = db_kh e p B;
  sh_ec : st_ec s = None;
  sh_thresh : st_thresh s = db_thresh p;
  sh_frac : st_frac s < db_thresh p;
  sh_buckets : st_buckets s = blen T;
  sh_modulus : st_modulus s = ceil_pow2 (blen T);
  sh_b1 : batch (st_p1 s);
  sh_b0 : batch (st_p0 s);
  sh_nd : NoDup (pkeys (pl_map (st_p1 s)) ++ pkeys (pl_map (st_p0 s)) ++ map fst (kvs recs)) }.

(** What the store holds. *)
Definition xabs (recs : list drec) (s : store) (k : bytes) : option bytes :=
  match pool_find (st_p1 s) k with
  | Some x => Some (pe_data x)
  | None => match pool_find (st_p0 s) k with Some x => Some (pe_data x) | None => kfind (kvs recs) k end
  end.

(** Sizes: [ni] inserts of [nb] bytes may follow, [i] inserts of [b] bytes have been called. *)
Definition sz (recs : list drec) (s : store) (ni nb i b : N) : Prop :=
  blen (kvs recs) + blen (pl_map (st_p0 s)) + blen (pl_map (st_p1 s)) + ni <= i /\
  blen (enc_recs recs) + pbytes (pl_map (st_p0 s)) + pbytes (pl_map (st_p1 s)) + nb <=
    b + 65544 * (blen (kvs recs) * blen (kvs recs)).

(** ** Where the flush is *)
Definition wend (recs : list drec) (T : list bent) : world :=
  World (Some (db_hdr p ++ enc_recs recs)) (Some (kfile bs (db_kb e p) T)) (Some []).

Definition phase0 (recs : list drec) (T : list bent) (s : store) (w : world) (fl : fls) : Prop :=
  match fl with
  | FlIdle => st_p0 s = pool_empty /\ st_c1 s = [] /\ w = wend recs T
  | FlData q =>
    st_c1 s = [] /\ allops dop anyres q /\ strict q /\
    ((exists news st T' s0 w0,
      let recs' := recs ++ map rec_of (pl_map (st_p0 s)) ++ news in
      sinv e p recs T s0 w0 /\ st_kh s0 = st_kh s /\ st_p1 s0 = st_p0 s /\
      commit_run e p recs T s0 w0 news st T' /\
      blen news <= blen (pl_map (st_p0 s)) * (blen (kvs recs) + blen (pl_map (st_p0 s))) /\
      run q w = (World (Some (db_hdr p ++ enc_recs recs')) (Some (kfile bs (db_kb e p) T))
                   (Some (log0 e (st_kh s0) recs T)), Ok st)) \/
     (exists w', run q w = (w', Er EAssert) /\ fp EAssert w'))
  | FlLog q =>
    st_p0 s = pool_empty /\
    run (q ;;; commit_key bs (e_iter e (st_c1 s)) ;;; commit_end) w = (wend recs T, Ok tt) /\
    allops lop anyres q /\ strict q
  | FlWait =>
    st_p0 s = pool_empty /\
    run (commit_key bs (e_iter e (st_c1 s)) ;;; commit_end) w = (wend recs T, Ok tt)
  | FlKey q =>
    st_p0 s = pool_empty /\ run q w = (wend recs T, Ok tt) /\ allops (kop bs (st_c1 s)) anyres q /\ strict q
  end.

(** The flush has failed; [fp] says with which errors that is possible. *)
Definition fl_failed (fl : fls) : bool :=
  match fl with
  | FlData (Ret (Er _)) | FlLog (Ret (Er _)) | FlKey (Ret (Er _)) => true
  | _ => false
  end.
Definition phase (recs : list drec) (T : list bent) (s : store) (w : world) (fl : fls) : Prop :=
  match fl with
  | FlData (Ret (Er er)) | FlLog (Ret (Er er)) | FlKey (Ret (Er er)) => fp er w
  | _ => phase0 recs T s w fl
  end.

Lemma phase_on recs T s w fl : phase0 recs T s w fl -> phase recs T s w fl.
Proof using Type.
  unfold phase. intros H.
  destruct fl as [|[[a|er]|o c]|[[a|er]|o c]| |[[a|er]|o c]]; try exact H; cbn [phase0] in H.
  - destruct H as (_ & _ & _ & [(news & st & T' & s0 & w0 & _ & _ & _ & _ & _ & X)|(w' & X & Hf)]); [discriminate|].
    cbn [run] in X. injection X as -> ->. exact Hf.
  - destruct H as (_ & X & _). discriminate.
  - destruct H as (_ & X & _). discriminate.
Qed.
Lemma phase_off recs T s w fl : phase recs T s w fl -> fl_failed fl = false -> phase0 recs T s w fl.
Proof using Type.
  unfold phase. intros H Hf. destruct fl as [|[[a|er]|o c]|[[a|er]|o c]| |[[a|er]|o c]]; try exact H; discriminate.
Qed.

(** ** Threads *)
Definition holder (c1 : cache) (gen : N) (fl : fls) (n g : N) : Prop :=
  g <= gen /\ (g = gen -> cache_find c1 n = None) /\ match fl with FlKey _ => g = gen | _ => True end.

(** What an insert will answer. *)
Definition outlook (m : smap) (l : lst) (k v : bytes) (found : bool) : Prop :=
  if found then l = LDone OKeyExists else l = LPending (OpInsert k v) /\ m k = None.

Definition tok (kh : key_header) (w : world) (c1 : cache) (gen : N) (fl : fls) (m : smap) (l : lst) (c : cth) : Prop :=
  match c with
  | CIdle => l = LIdle
  | CFetch k => l = LPending (OpFetch k) /\ blen k = ks
  | CFetchC n b q =>
    exists r, l = LDone (fetch_out r) /\ reads nokey w q r /\ cache_find c1 n = Some b
  | CFetchK n g q =>
    exists r, l = LDone (fetch_out r) /\ reads (blk bs n) w q r /\ holder c1 gen fl n g
  | CInsert k v | CInsLocked k v => l = LPending (OpInsert k v) /\ valid_op ks (OpInsert k v)
  | CInsC k v n b q =>
    valid_op ks (OpInsert k v) /\ cache_find c1 n = Some b /\
    exists found r, outlook m l k v found /\ reads nokey w q (Ok r) /\
      if r then found = true
      else reads nokey w (exists_rest e kh (hash (e_hasher e) (db_salt p) k) k (bk_of_blob b)) (Ok found)
  | CInsD k v q =>
    valid_op ks (OpInsert k v) /\ exists found, outlook m l k v found /\ reads nokey w q (Ok found)
  | CInsK k v n g q =>
    valid_op ks (OpInsert k v) /\ holder c1 gen fl n g /\
    exists found, outlook m l k v found /\ reads (blk bs n) w q (Ok found)
  | CInsGo k v => valid_op ks (OpInsert k v) /\ outlook m l k v false
  | CRet o => l = LDone o
  end.

Record xinv (recs : list drec) (T : list bent) (A : list N) (x : xst) (m : smap) (f : N -> lst) (i b : N) : Prop := XInv {
  xi_sh : shared recs T (x_s x) (x_w x);
  xi_ph : phase recs T (x_s x) (x_w x) (x_fl x);
  xi_th : forall t, tok (st_kh (x_s x)) (x_w x) (st_c1 (x_s x)) (g_gen (x_g x)) (x_fl x) m (f t) (x_th x t);
  xi_nd : NoDup A;
  xi_out : forall t, ~ In t A -> x_th x t = CIdle;
  xi_m : x_m x = sumw wm A (x_th x);
  xi_u : b2n (x_u x) = sumw wu A (x_th x);
  xi_c : g_cur (x_g x) = sumw (wc (g_gen (x_g x))) A (x_th x);
  xi_p : g_prev (x_g x) = sumw (wp (g_gen (x_g x))) A (x_th x);
  xi_sz : sz recs (x_s x) (sumw pn A (x_th x)) (sumw pb A (x_th x)) i b;
  xi_abs : forall k, m k = xabs recs (x_s x) k }.

(** ** Threads when something else changes *)
Lemma tok_change kh w c1 gen fl m l c w' c1' gen' fl' :
  tok kh w c1 gen fl m l c ->
  same nokey w w' ->
  (wm c = 0 \/ c1' = c1) ->
  (forall n g, hold c = Some (n, g) -> holder c1 gen fl n g ->
     holder c1' gen' fl' n g /\ same (blk bs n) w w') ->
  tok kh w' c1' gen' fl' m l c.
Proof using Type.
  intros Ht Hn Hm Hh. destruct c as [|k|n b q|n g q|k v|k v|k v n b q|k v q|k v n g q|k v|o]; cbn [tok wm hold] in *; auto.
  - destruct Hm as [Hm| ->]; [discriminate|]. destruct Ht as (r & H1 & H2 & H3). exists r. splits; auto.
    eapply reads_same; eauto.
  - destruct Ht as (r & H1 & H2 & H3). destruct (Hh n g eq_refl H3) as [H4 H5]. exists r. splits; auto.
    eapply reads_same; eauto.
  - destruct Hm as [Hm| ->]; [discriminate|]. destruct Ht as (H1 & H2 & fd & r & H3 & H4 & H5).
    splits; auto. exists fd, r. splits; auto; [eapply reads_same; eauto|].
    destruct r; auto. eapply reads_same; eauto.
  - destruct Ht as (H1 & fd & H3 & H4). split; auto. exists fd. split; auto. eapply reads_same; eauto.
  - destruct Ht as (H1 & H2 & fd & H3 & H4). destruct (Hh n g eq_refl H2) as [H5 H6]. splits; auto.
    exists fd. split; auto. eapply reads_same; eauto.
Qed.

(** Threads that do not own u_ do not depend on the contents. *)
Lemma tok_map kh w c1 gen fl m m' l c : wu c = 0 -> tok kh w c1 gen fl m l c -> tok kh w c1 gen fl m' l c.
Proof using Type. destruct c; cbn [wu tok]; auto; discriminate. Qed.

Lemma wt_idle : wm CIdle = 0 /\ wu CIdle = 0 /\ (forall g, wc g CIdle = 0) /\ (forall g, wp g CIdle = 0) /\
  pn CIdle = 0 /\ pb CIdle = 0.
Proof using Type. splits; reflexivity. Qed.

(** Weights of single threads. *)
Lemma wt_le wt recs T A x m f i b t : xinv recs T A x m f i b -> wt CIdle = 0 -> wt (x_th x t) <= sumw wt A (x_th x).
Proof using Type.
  intros Hi H0. destruct (in_dec N.eq_dec t A) as [Ht|Ht]; [apply sumw_ge; auto|].
  rewrite (xi_out _ _ _ _ _ _ _ _ Hi t Ht), H0. lia.
Qed.

Lemma active_in recs T A x m f i b t : xinv recs T A x m f i b -> x_th x t <> CIdle -> In t A.
Proof using Type.
  intros Hi Hn. destruct (in_dec N.eq_dec t A) as [Ht|Ht]; auto.
  exfalso. apply Hn. apply (xi_out _ _ _ _ _ _ _ _ Hi t Ht).
Qed.

(** A thread goes on, and the store stays as it is. *)
Lemma xinv_goto recs T A x m f i b t c l f' xm xu xg :
  xinv recs T A x m f i b -> x_th x t <> CIdle ->
  f' t = l -> (forall u, u <> t -> f' u = f u) ->
  g_gen xg = g_gen (x_g x) ->
  tok (st_kh (x_s x)) (x_w x) (st_c1 (x_s x)) (g_gen (x_g x)) (x_fl x) m l c ->
  xm + wm (x_th x t) = x_m x + wm c ->
  b2n xu + wu (x_th x t) = b2n (x_u x) + wu c ->
  g_cur xg + wc (g_gen (x_g x)) (x_th x t) = g_cur (x_g x) + wc (g_gen (x_g x)) c ->
  g_prev xg + wp (g_gen (x_g x)) (x_th x t) = g_prev (x_g x) + wp (g_gen (x_g x)) c ->
  pn c <= pn (x_th x t) -> pb c <= pb (x_th x t) ->
  xinv recs T A (XSt (x_w x) (x_s x) xm xu xg (tset (x_th x) t c) (x_fl x)) m f' i b.
Proof using Type.
  intros Hi Hact Hf Hfo Hg Ht Em Eu Ec Ep Pn Pb.
  pose proof (active_in _ _ _ _ _ _ _ _ _ Hi Hact) as Hin.
  destruct Hi as [I1 I2 I3 I4 I5 I6 I7 I8 I9 I10 I11].
  pose proof (sumw_upd wm A (x_th x) t c I4 Hin) as Um.
  pose proof (sumw_upd wu A (x_th x) t c I4 Hin) as Uu.
  pose proof (sumw_upd (wc (g_gen (x_g x))) A (x_th x) t c I4 Hin) as Uc.
  pose proof (sumw_upd (wp (g_gen (x_g x))) A (x_th x) t c I4 Hin) as Up.
  pose proof (sumw_upd pn A (x_th x) t c I4 Hin) as Un.
  pose proof (sumw_upd pb A (x_th x) t c I4 Hin) as Ub.
  constructor; cbn [x_w x_s x_m x_u x_g x_th x_fl]; auto; rewrite ?Hg.
  - intros u. destruct (N.eq_dec u t) as [->|Hu].
    + rewrite tset_same, Hf. auto.
    + rewrite tset_other, Hfo by auto. apply I3.
  - intros u Hu. rewrite tset_other; auto. intros ->. auto.
  - clear - Um Em I6. lia.
  - clear - Uu Eu I7. lia.
  - clear - Uc Ec I8. lia.
  - clear - Up Ep I9. lia.
  - unfold sz in *. clear - Un Ub Pn Pb I10. lia.
Qed.
End Conc.
