(** Stopping a commit: what is left on the disk. *)
From Verif Require Import Model.Bytes Model.Err Model.Field Model.Format Model.IO
  Model.BulkIO Model.Bucket Model.Pool Model.Recover Model.Store Model.Crash
  Proofs.BytesFacts Proofs.FieldFacts Proofs.IOFacts Proofs.PoolFacts Proofs.BucketFacts
  Proofs.BulkFacts Proofs.HashFacts Proofs.Table Proofs.Lookup Proofs.SplitFacts
  Proofs.CommitFacts Proofs.CommitInv Proofs.CommitRun Proofs.HeaderFacts Proofs.StoreInv
  Proofs.OpenFacts Proofs.SafeFacts Proofs.CommitOps.

Notation ord := log_in_order.

(** ** Prefixes *)
Definition pref (a b : bytes) : Prop := exists t, b = a ++ t.

Lemma pref_refl a : pref a a.
Proof. exists []. rewrite app_nil_r. auto. Qed.
Lemma pref_trans a b c : pref a b -> pref b c -> pref a c.
Proof. intros [t ->] [u ->]. exists (t ++ u). rewrite app_assoc. auto. Qed.
Lemma pref_app a b : pref a (a ++ b).
Proof. exists b. auto. Qed.
Lemma pref_btake n a : pref (btake n a) a.
Proof. exists (bdrop n a). symmetry. apply btake_bdrop. Qed.

(** Bytes below [blen a] unchanged: [a] is a prefix. *)
Lemma pref_nth a b : blen a <= blen b -> (forall i, i < blen a -> nthN b i 0 = nthN a i 0) -> pref a b.
Proof.
  intros Hl Hn. exists (bdrop (blen a) b). rewrite <- (btake_bdrop (blen a) b) at 1. f_equal.
  apply (nthN_ext _ _ 0).
  - rewrite blen_btake. lia.
  - intros i Hi. rewrite blen_btake in Hi. rewrite nthN_btake by lia. apply Hn. lia.
Qed.
Lemma nth_pref a b i : pref a b -> i < blen a -> nthN b i 0 = nthN a i 0.
Proof. intros [t ->] Hi. apply nthN_app_l. auto. Qed.
Lemma pref_len a b : pref a b -> blen a <= blen b.
Proof. intros [t ->]. rewrite blen_app. lia. Qed.

(** Two prefixes of the same string. *)
Lemma pref_comp a b c : pref a c -> pref b c -> pref a b \/ pref b a.
Proof.
  intros Ha Hb. destruct (N.le_ge_cases (blen a) (blen b)) as [H|H]; [left|right];
    apply pref_nth; auto; intros i Hi.
  - rewrite <- (nth_pref b c), <- (nth_pref a c); auto; lia.
  - rewrite <- (nth_pref a c), <- (nth_pref b c); auto; lia.
Qed.

(** Appending operations only extend the file. *)
Lemma app_exec f o w x : app_to f o -> wget w f = Some x ->
  exists y, wget (fst (exec o w)) f = Some y /\ pref x y.
Proof.
  intros [Hp|(off & d & ->)] Hx.
  - rewrite pure_exec by auto. exists x. split; auto. apply pref_refl.
  - simpl. rewrite Hx. destruct (N.eqb_spec off (blen x)) as [E|E]; simpl.
    + rewrite wget_wset_same. eexists; split; [reflexivity|]. rewrite bwrite_end by auto. apply pref_app.
    + exists x. split; auto. apply pref_refl.
Qed.
Lemma app_other f g o w : app_to f o -> f <> g -> wget (fst (exec o w)) g = wget w g.
Proof.
  intros [Hp|(off & d & ->)] Hg; [rewrite pure_exec by auto; auto|].
  simpl. destruct (wget w f) as [x|]; auto. destruct (negb (off =? blen x)); auto.
  simpl. apply wget_wset_other. auto.
Qed.
Lemma app_run {A} f (p : prog A) : forall w x, allops (app_to f) anyres p -> wget w f = Some x ->
  exists y, wget (fst (run p w)) f = Some y /\ pref x y.
Proof.
  induction p as [a|o k IH]; intros w x Hp Hx.
  - exists x. split; auto. apply pref_refl.
  - inversion Hp; subst. destruct (app_exec _ _ _ _ H1 Hx) as (y & Hy & Hxy).
    rewrite run_do. destruct (IH (snd (exec o w)) _ _ (H2 _) Hy) as (z & Hz & Hyz).
    exists z. split; auto. eapply pref_trans; eauto.
Qed.

(** Survivors of appends to a file without order. *)
Lemma app_surv f o w (S : surv) D x :
  ord f = false -> app_to f o -> wget w f = Some x -> pref D x ->
  (forall c, S f c -> exists y, c = Some y /\ pref D y) ->
  forall c, sexec ord o w S f c -> exists y, c = Some y /\ pref D y.
Proof.
  intros Hf [Hp|(off & d & ->)] Hx HD HS c.
  - rewrite pure_sexec by auto. auto.
  - simpl. rewrite Hx. destruct (N.eqb_spec off (blen x)) as [E|E]; simpl; [|auto].
    rewrite sset_same, Hf. intros [Hc|(y & y' & Hy & -> & Ht)]; [auto|].
    destruct (HS _ Hy) as (y0 & E0 & Hp0). injection E0; intros; subst y0.
    exists y'. split; auto. apply pref_len in HD as HDl. apply pref_len in Hp0 as Hpl.
    destruct Ht as [Hl Hn]. apply pref_nth; [lia|].
    intros i Hi. rewrite Hn by lia. apply nth_pref; auto.
Qed.
(** ... and to one with order. *)
Lemma app_surv_ord f o w (S : surv) D x :
  ord f = true -> app_to f o -> wget w f = Some x -> pref D x ->
  (forall c, S f c -> exists y, c = Some y /\ pref D y /\ pref y x) ->
  exists x', wget (fst (exec o w)) f = Some x' /\ pref x x' /\
  forall c, sexec ord o w S f c -> exists y, c = Some y /\ pref D y /\ pref y x'.
Proof.
  intros Hf Ha Hx HD HS. destruct (app_exec _ _ _ _ Ha Hx) as (x' & Hx' & Hp). exists x'. splits; auto.
  assert (HS' : forall c, S f c -> exists y, c = Some y /\ pref D y /\ pref y x').
  { intros c Hc. destruct (HS _ Hc) as (y & -> & H1 & H2). exists y. splits; auto. eapply pref_trans; eauto. }
  intros c. destruct Ha as [Hpu|(off & d & ->)].
  - rewrite pure_sexec by auto. auto.
  - simpl in *. rewrite Hx in *. destruct (N.eqb_spec off (blen x)) as [E|E]; simpl in *; [|auto].
    rewrite sset_same, Hf. intros [Hc|(n & ->)]; [auto|].
    rewrite wget_wset_same in Hx'. injection Hx' as <-. rewrite !bwrite_end by auto.
    eexists; splits; [reflexivity| |].
    + eapply pref_trans; [exact HD|apply pref_app].
    + rewrite <- (btake_bdrop n d) at 2. exists (bdrop n d). rewrite <- app_assoc. auto.
Qed.
Lemma app_surv_other f g o w S : app_to f o -> f <> g -> sexec ord o w S g = S g.
Proof.
  intros [Hp|(off & d & ->)] Hg; [rewrite pure_sexec by auto; auto|].
  simpl. destruct (wget w f) as [x|]; auto. destruct (negb (off =? blen x)); auto.
  apply sset_other. auto.
Qed.

(** ** Log records *)
Definition lrec := (N * bent)%type.
Definition enc_lrec (r : lrec) : bytes := wr64 (fst r) ++ enc_bucket (fst (snd r)) (snd (snd r)).
Definition enc_lrecs (l : list lrec) : bytes := flat_map enc_lrec l.

Lemma blen_enc_lrec r : blen (enc_lrec r) = 8 + bucket_size (blen (fst (snd r))).
Proof. unfold enc_lrec. rewrite blen_app, blen_wr64, blen_enc_bucket. auto. Qed.
Lemma enc_lrec_ne r : enc_lrec r <> [].
Proof. intros E. pose proof (blen_enc_lrec r) as H. rewrite E in H. change (blen (@nil N)) with 0 in H. lia. Qed.

Lemma pref_lrecs l : forall r, pref r (enc_lrecs l) ->
  exists l1 l2 q, l = l1 ++ l2 /\ r = enc_lrecs l1 ++ q /\
    ((q = []) \/ exists x q2, In x l2 /\ enc_lrec x = q ++ q2 /\ q2 <> []).
Proof.
  induction l as [|x l IH]; intros r Hr.
  - destruct Hr as [t Ht]. symmetry in Ht. apply app_eq_nil in Ht as [-> _]. exists [], [], []. auto.
  - cbn [enc_lrecs flat_map] in Hr. fold (enc_lrecs l) in Hr.
    destruct (pref_comp r (enc_lrec x) _ Hr (pref_app _ _)) as [[t Ht]|[t Ht]].
    + destruct t as [|b t].
      * rewrite app_nil_r in Ht. exists [x], l, []. cbn [enc_lrecs flat_map]. rewrite Ht, !app_nil_r. auto.
      * exists [], (x :: l), r. splits; auto. right. exists x, (b :: t). splits; [simpl; auto|auto|discriminate].
    + subst r. destruct Hr as [u Hu]. rewrite <- app_assoc in Hu. apply app_inv_head in Hu.
      destruct (IH t (ex_intro _ u Hu)) as (l1 & l2 & q & -> & -> & Hq).
      exists (x :: l1), l2, q. cbn [enc_lrecs flat_map app]. rewrite <- app_assoc. auto.
Qed.

Section Crash.
Variables (e : env) (p : dbp).
Hypothesis Hp : dbp_ok p.
Hypothesis Hit : iter_ok e.
Notation bs := (db_block_size p).

Section Pre.
Variables (recs : list drec) (T : list bent).
Definition dat0 : bytes := db_hdr p ++ enc_recs recs.
Definition key0 : bytes := kfile bs (db_kb e p) T.
Definition lhead : bytes := log0 e (db_kh e p 0) recs T.

Lemma lhead_B B : log0 e (db_kh e p B) recs T = lhead.
Proof. reflexivity. Qed.
Lemma blen_lhead : blen lhead = log_hdr_size.
Proof. unfold lhead, log0. apply blen_log_header. Qed.

Lemma blen_dat0 : blen dat0 = dat_hdr_size + blen (enc_recs recs).
Proof using Hp. unfold dat0. rewrite blen_app, p_hdr; auto. Qed.
Lemma lhead_eq B : lhead = enc_log_header (commit_log_header e (db_kh e p B) ((blen T + 1) * bs)
  (dat_hdr_size + blen (enc_recs recs))).
Proof using. reflexivity. Qed.
Local Opaque lhead dat0 key0.

(** Nothing under way: no log or one too short to be considered. *)
Definition at_rest (w : world) : Prop :=
  wget w FDat = Some dat0 /\ wget w FKey = Some key0 /\
  (wget w FLog = None \/ exists l, wget w FLog = Some l /\ blen l < log_hdr_size).

Definition valid_lrec (r : lrec) : Prop := fst r < blen T /\ snd r = nthN T (fst r) b0.

(** A key file that differs from the old one only in logged blocks and beyond its
    old end. *)
Definition key_mid (l : list lrec) (k : bytes) : Prop :=
  blen key0 <= blen k /\
  forall i, i < blen key0 ->
    (forall r, In r l -> i < (fst r + 1) * bs \/ (fst r + 1) * bs + bs <= i) ->
    nthN k i 0 = nthN key0 i 0.

Definition cut (q : bytes) : Prop :=
  exists r q2, valid_lrec r /\ enc_lrec r = q ++ q2 /\ q2 <> [].

(** A commit under way. *)
Definition midway (w : world) : Prop :=
  exists x k l q,
    wget w FDat = Some (dat0 ++ x) /\ wget w FKey = Some k /\
    wget w FLog = Some (lhead ++ enc_lrecs l ++ q) /\
    Forall valid_lrec l /\ blen l <= blen T /\ cut q /\ key_mid l k.

Definition before (w : world) : Prop := at_rest w \/ midway w.

Lemma cut_nil : 1 <= blen T -> cut [].
Proof.
  intros H. exists (0, nthN T 0 b0), (enc_lrec (0, nthN T 0 b0)). splits; auto.
  - split; auto. simpl. lia.
  - apply enc_lrec_ne.
Qed.

Lemma key_mid_refl l : key_mid l key0.
Proof. split; [lia|]. auto. Qed.

Lemma key_mid_write l k k' off len :
  key_mid l k -> torn_write off len k k' ->
  (forall i, i < blen key0 -> off <= i < off + len ->
     exists r, In r l /\ (fst r + 1) * bs <= i < (fst r + 1) * bs + bs) ->
  key_mid l k'.
Proof.
  intros [H1 H2] [T1 T2] Hc. split; [lia|]. intros i Hi Hout.
  rewrite <- H2 by auto. apply T2; [lia|].
  destruct (N.lt_ge_cases i off) as [X|X]; [auto|].
  destruct (N.lt_ge_cases i (off + len)) as [Y|Y]; [|auto].
  destruct (Hc i Hi (conj X Y)) as (r & Hr & Hb). apply Hout in Hr. lia.
Qed.

(** What may be on the disk when nothing is under way. *)
Definition rest_surv (S : surv) : Prop :=
  (forall c, S FDat c -> c = Some dat0) /\ (forall c, S FKey c -> c = Some key0) /\
  (forall c, S FLog c -> c = None \/ c = Some []).

Lemma rest_before S v : rest_surv S -> on_disk S v -> at_rest v.
Proof.
  intros (A & B & C) H. unfold at_rest. splits; auto. destruct (C _ (H FLog)) as [E|E]; auto.
  right. eexists; split; [exact E|]. reflexivity.
Qed.

(** Phase 1: the log header. *)
Lemma safe_begin B w S :
  1 <= blen T ->
  wget w FDat = Some dat0 -> wget w FKey = Some key0 -> wget w FLog = Some [] ->
  blen key0 = (blen T + 1) * bs ->
  rest_surv S ->
  safe ord before (commit_begin e (db_kh e p B)) w S (fun _ _ S' =>
    S' FDat = S FDat /\ S' FKey = S FKey /\ S' FLog = fun c => c = Some lhead).
Proof.
  intros HT Hd Hk Hl HK HS. unfold commit_begin in *.
  assert (G0 : forall v, on_disk S v -> before v) by (intros v Hv; left; eapply rest_before; eauto).
  eapply safe_eskip; [apply run_size; eauto|apply ao_weaken with (R := okres anyres) (P := io_pure);
    [apply ao_num; exact I|auto|intros; exact I]|auto|].
  eapply safe_eskip; [apply run_size; eauto|apply ao_weaken with (R := okres anyres) (P := io_pure);
    [apply ao_num; exact I|auto|intros; exact I]|auto|].
  set (hh := enc_log_header (commit_log_header e (db_kh e p B) (blen key0) (blen dat0))) in *.
  assert (Eh : hh = lhead).
  { unfold hh. rewrite HK, blen_dat0. symmetry. apply lhead_eq. }
  rewrite Eh. clear hh Eh.
  unfold ebind, p_write, p_sync, do_unit. cbn [bind safe sexec exec fst snd]. rewrite Hl.
  change (true && negb (0 =? blen (@nil N))) with false. cbv iota. cbn [fst snd bind safe exec sexec].
  rewrite wget_wset_same. cbn [fst snd bind safe].
  destruct HS as (A & C & D).
  assert (Hb : bwrite 0 lhead [] = lhead) by (rewrite bwrite_end by reflexivity; reflexivity).
  assert (Good : forall v c, (c = None \/ c = Some [] \/ exists n, c = Some (btake n lhead)) ->
    wget v FDat = Some dat0 -> wget v FKey = Some key0 -> wget v FLog = c -> before v).
  { intros v c Hc Vd Vk Vl. destruct Hc as [E|[E|(n & E)]]; rewrite E in Vl.
    - left. unfold at_rest. splits; auto.
    - left. unfold at_rest. splits; auto. right. eexists; split; [exact Vl|]. reflexivity.
    - destruct (N.lt_ge_cases n log_hdr_size) as [Hn|Hn].
      + left. unfold at_rest. splits; auto. right. eexists; split; [exact Vl|]. rewrite blen_btake. lia.
      + right. rewrite btake_all in Vl by (rewrite blen_lhead; auto).
        exists [], key0, [], []. rewrite app_nil_r. cbn [enc_lrecs flat_map]. rewrite app_nil_r.
        splits; auto. apply N.le_0_l. apply cut_nil; auto. apply key_mid_refl. }
  splits; auto.
  - intros v Hv. pose proof (Hv FDat) as Vd. pose proof (Hv FKey) as Vk. pose proof (Hv FLog) as Vl.
    unfold sset in Vd, Vk, Vl. cbn [fname_eqb log_in_order] in Vd, Vk, Vl.
    apply (Good v (wget v FLog)); auto.
    destruct Vl as [Vl|(n & Vl)]; [destruct (D _ Vl); auto|]. right. right. exists n. rewrite Vl.
    f_equal. rewrite bwrite_end by reflexivity. reflexivity.
  - intros v Hv. pose proof (Hv FDat) as Vd. pose proof (Hv FKey) as Vk. pose proof (Hv FLog) as Vl.
    unfold sset in Vd, Vk, Vl. cbn [fname_eqb] in Vd, Vk, Vl.
    apply (Good v (wget v FLog)); auto. right. right. exists (blen lhead). rewrite btake_all by lia.
    rewrite Vl, Hb. auto.
Qed.

(** Phase 2: appending to the data file. *)
Definition S2 (k : bytes -> Prop) (l : bytes -> Prop) (S : surv) : Prop :=
  (forall c, S FDat c -> exists y, c = Some y /\ pref dat0 y) /\
  (forall c, S FKey c -> exists y, c = Some y /\ k y) /\
  (forall c, S FLog c -> exists y, c = Some y /\ l y).

Lemma safe_data e' kh th fr B M ls w S x :
  1 <= blen T ->
  wget w FDat = Some x -> pref dat0 x ->
  S2 (eq key0) (eq lhead) S ->
  safe ord before (commit_data e' kh th fr B M ls) w S (fun _ _ S' =>
    S2 (eq key0) (eq lhead) S').
Proof.
  intros HT Hd Hx HS.
  eapply safe_weaken.
  - apply (safe_inv' ord before (app_to FDat) (fun w S =>
      (exists x, wget w FDat = Some x /\ pref dat0 x) /\ S2 (eq key0) (eq lhead) S)).
    + intros o w1 S1 Ho ((y & Hy & Hpy) & A & C & D). split; [|unfold S2; splits].
      * destruct (app_exec _ _ _ _ Ho Hy) as (z & Hz & Hyz). exists z. split; auto. eapply pref_trans; eauto.
      * eapply app_surv; eauto.
      * rewrite (app_surv_other FDat FKey) by (auto; discriminate). auto.
      * rewrite (app_surv_other FDat FLog) by (auto; discriminate). auto.
    + intros w1 S1 (_ & A & C & D) v Hv. right.
      destruct (A _ (Hv FDat)) as (y & Ey & t & ->). destruct (C _ (Hv FKey)) as (k & Ek & <-).
      destruct (D _ (Hv FLog)) as (l & El & <-).
      exists t, key0, [], []. cbn [enc_lrecs flat_map]. rewrite !app_nil_r. splits; auto.
      apply N.le_0_l. apply cut_nil; auto. apply key_mid_refl.
    + apply ops_commit_data.
    + split; eauto.
  - auto.
  - cbv beta. intros a w' S' (_ & H). auto.
Qed.

(** Phase 3: the log records. *)
Variable L : list lrec.
Hypothesis HL : Forall valid_lrec L.
Hypothesis HLn : blen L <= blen T.
Definition lfull : bytes := lhead ++ enc_lrecs L.
Local Opaque lfull.

Definition I3 (w : world) (S : surv) : Prop :=
  exists l, wget w FLog = Some l /\ pref lhead l /\
    S2 (eq key0) (fun y => pref lhead y /\ pref y l) S.

Lemma midway_log v x y :
  1 <= blen T ->
  wget v FDat = Some (dat0 ++ x) -> wget v FKey = Some key0 -> wget v FLog = Some y ->
  pref lhead y -> pref y lfull -> midway v.
Proof using HL HLn.
  intros HT Hd Hk Hl [r ->] [t Ht]. Local Transparent lfull. unfold lfull in Ht. Local Opaque lfull.
  rewrite <- app_assoc in Ht. apply app_inv_head in Ht.
  destruct (pref_lrecs L r (ex_intro _ t Ht)) as (l1 & l2 & q & El & -> & Hq).
  rewrite El in HL. apply Forall_app in HL as [H1 H2].
  exists x, key0, l1, q. splits; auto.
  - rewrite El, blen_app in HLn. lia.
  - destruct Hq as [->|(z & q2 & Hz & Ez & Hne)]; [apply cut_nil; auto|].
    exists z, q2. splits; auto. rewrite Forall_forall in H2. auto.
  - apply key_mid_refl.
Qed.

Lemma safe_log_app {A} (pr : prog A) w S wf a lf :
  1 <= blen T ->
  allops (app_to FLog) anyres pr -> run pr w = (wf, a) -> wget wf FLog = Some lf -> pref lf lfull ->
  I3 w S -> safe ord before pr w S (fun _ w' S' => I3 w' S').
Proof using HL HLn.
  intros HT Ha Hr Hlf Hpf Hi.
  apply (safe_inv ord before (app_to FLog) I3 wf a); auto.
  - intros o w1 S1 Ho (l & Hl & Hpl & A1 & C1 & D1).
    destruct (app_surv_ord FLog o w1 S1 lhead l eq_refl Ho Hl Hpl D1) as (l' & Hl' & Hll & D2).
    exists l'. splits; auto. eapply pref_trans; eauto. unfold S2. splits; auto.
    + rewrite (app_surv_other FLog FDat) by (auto; discriminate). auto.
    + rewrite (app_surv_other FLog FKey) by (auto; discriminate). auto.
  - intros q w1 S1 Hq Hrq (l & Hl & Hpl & A1 & C1 & D1) v Hv. right.
    destruct (app_run FLog q w1 l Hq Hl) as (l' & Hl' & Hll). rewrite Hrq in Hl'. cbn [fst] in Hl'.
    rewrite Hlf in Hl'. injection Hl' as <-.
    destruct (A1 _ (Hv FDat)) as (y & Ey & t & ->). destruct (C1 _ (Hv FKey)) as (k & Ek & <-).
    destruct (D1 _ (Hv FLog)) as (z & El & Hz1 & Hz2).
    eapply midway_log; eauto. eapply pref_trans; [exact Hz2|]. eapply pref_trans; eauto.
Qed.

Lemma ops_any {A} P (R : A -> Prop) (pr : prog A) : allops P R pr -> allops P anyres pr.
Proof using. intros H. eapply ao_weaken; [exact H|auto|intros; exact I]. Qed.

Lemma safe_log c0 w S :
  1 <= blen T ->
  wget w FLog = Some lhead -> flat_map log_record (e_iter e c0) = enc_lrecs L ->
  S2 (eq key0) (eq lhead) S ->
  safe ord before (commit_log e c0) w S (fun _ _ S' => S2 (eq key0) (eq lfull) S').
Proof using HL HLn.
  intros HT Hl Hc HS. unfold commit_log.
  assert (HI : I3 w S).
  { exists lhead. splits; auto using pref_refl. destruct HS as (A1 & C1 & D1). unfold S2. splits; auto.
    intros c Hcc. destruct (D1 _ Hcc) as (y & -> & <-). exists lhead. splits; auto using pref_refl. }
  assert (G0 : forall w' S', I3 w' S' -> (exists l, wget w' FLog = Some l /\ pref l lfull) ->
     forall v, on_disk S' v -> before v).
  { intros w' S' (l & El & Hpl & A1 & C1 & D1) (l' & El' & Hpl') v Hv. right.
    rewrite El in El'. injection El' as <-.
    destruct (A1 _ (Hv FDat)) as (y & Ey & t & ->). destruct (C1 _ (Hv FKey)) as (k & Ek & <-).
    destruct (D1 _ (Hv FLog)) as (z & Ez & Hz1 & Hz2).
    eapply midway_log; eauto. eapply pref_trans; eauto. }
  assert (Hfull : lfull = lhead ++ flat_map log_record (e_iter e c0)).
  { rewrite Hc. Local Transparent lfull. unfold lfull. Local Opaque lfull. reflexivity. }
  assert (Hlf : pref lhead lfull) by (rewrite Hfull; apply pref_app).
  eapply safe_eskip; [apply run_size; eauto|eapply ops_any; apply ao_num; exact I| |].
  { eapply G0; eauto. }
  cbv zeta.
  destruct (run_commit_log_records (e_iter e c0) w (bw_make FLog true (blen lhead) logWriteSize) lhead)
    as (x & bw & Hr & Hi). { apply bw_make_inv; auto. }
  rewrite <- Hfull in Hi.
  assert (Hx : pref x lfull).
  { destruct Hi as [_ _ (d & Hd & _ & Ed)]. rewrite wget_wset_same in Hd. injection Hd as <-. rewrite Ed. apply pref_app. }
  eapply safe_ebind_run; [exact Hr|eapply safe_log_app; [auto| |exact Hr|apply wget_wset_same|exact Hx|exact HI]|].
  { eapply ops_any. apply ops_commit_log_records. split; auto. }
  cbv beta. intros S1 HI1. destruct (run_bw_flush _ _ _ _ Hi) as (bw' & Hf & Hi' & _).
  rewrite wset_wset in Hf.
  eapply safe_ebind_run; [exact Hf|eapply safe_log_app; [auto| |exact Hf|apply wget_wset_same|apply pref_refl|exact HI1]|].
  { eapply ops_any. apply ops_bw_flush. destruct Hi as [X Y _]. split; auto. }
  cbv beta. intros S3 HI3.
  unfold p_sync, do_unit. cbn [safe exec sexec fst snd]. rewrite wget_wset_same. cbn [safe exec sexec fst snd].
  assert (G3 : forall v, on_disk S3 v -> before v).
  { eapply G0; [exact HI3|]. exists lfull. split; [apply wget_wset_same|apply pref_refl]. }
  destruct HI3 as (l & El & Hpl & A1 & C1 & D1).
  splits; auto.
  - intros v Hv. right. 
    destruct (A1 _ (Hv FDat)) as (y & Ey & t & ->). destruct (C1 _ (Hv FKey)) as (k & Ek & <-).
    pose proof (Hv FLog) as Vl. cbn [sset fname_eqb] in Vl.
    eapply midway_log; eauto. apply pref_refl.
  - unfold S2. splits; cbn [sset fname_eqb]; auto.
    intros c ->. eauto.
Qed.

(** Phase 4: the buckets. *)
Lemma midway_full v x k :
  1 <= blen T ->
  wget v FDat = Some (dat0 ++ x) -> wget v FKey = Some k -> wget v FLog = Some lfull ->
  key_mid L k -> midway v.
Proof using HL HLn.
  intros HT Hd Hk Hl Hm. exists x, k, L, []. rewrite app_nil_r. splits; auto. apply cut_nil; auto.
Qed.

Lemma safe_key c w S k :
  1 <= blen T ->
  blen key0 = (blen T + 1) * bs ->
  (forall n q, In (n, q) c -> blen (bk_padded (bk_of_blob q)) = bs /\
     (n < blen T -> exists r, In r L /\ fst r = n)) ->
  wget w FKey = Some k -> key_mid L k ->
  S2 (key_mid L) (eq lfull) S ->
  safe ord before (commit_key bs c) w S (fun _ w' S' =>
    (exists k, wget w' FKey = Some k /\ key_mid L k) /\ S2 (key_mid L) (eq lfull) S').
Proof using HL HLn.
  intros HT HK Hc Hk Hm HS.
  eapply safe_weaken.
  - apply (safe_inv' ord before (key_block bs c) (fun w S =>
      (exists k, wget w FKey = Some k /\ key_mid L k) /\ S2 (key_mid L) (eq lfull) S)).
    + intros o w1 S1 (n & q & Hin & ->) ((k1 & Hk1 & Hm1) & A1 & C1 & D1).
      destruct (Hc _ _ Hin) as [Hb Hn].
      assert (HW : forall y y', key_mid L y -> torn_write ((n + 1) * bs) bs y y' -> key_mid L y').
      { intros y y' Hy Ht. eapply key_mid_write; [exact Hy|exact Ht|].
        intros i Hi Hio. rewrite HK in Hi.
        assert (n < blen T) as Hlt. { clear - Hi Hio. nia. }
        destruct (Hn Hlt) as (r & Hr & Er). exists r. rewrite Er. split; auto. }
      simpl. rewrite Hk1. cbn [andb fst]. rewrite wget_wset_same. split.
      * eexists; split; [reflexivity|]. eapply HW; [exact Hm1|].
        pose proof (torn_write_full ((n + 1) * bs) (bk_padded (bk_of_blob q)) k1) as X. rewrite Hb in X. exact X.
      * unfold S2. cbn [sset fname_eqb log_in_order]. splits; auto.
        intros c0 [Hc0|(y & y' & Hy & -> & Ht)]; auto.
        destruct (C1 _ Hy) as (y0 & Ey & Hy0). injection Ey as <-. rewrite Hb in Ht. eauto.
    + intros w1 S1 (_ & A1 & C1 & D1) v Hv. right.
      destruct (A1 _ (Hv FDat)) as (y & Ey & t & ->). destruct (C1 _ (Hv FKey)) as (k1 & Ek & Hk1).
      destruct (D1 _ (Hv FLog)) as (l & El & <-). eapply midway_full; eauto.
    + apply ops_commit_key. apply incl_refl.
    + split; eauto.
  - auto.
  - cbv beta. intros a w' S' H. exact H.
Qed.

(** Phase 5: syncing and clearing the log. *)
Lemma safe_end w S d1 k1 :
  1 <= blen T ->
  wget w FDat = Some d1 -> wget w FKey = Some k1 -> wget w FLog = Some lfull ->
  pref dat0 d1 -> key_mid L k1 -> S2 (key_mid L) (eq lfull) S ->
  safe ord (fun v => before v \/ wget v FDat = Some d1 /\ wget v FKey = Some k1 /\ wget v FLog = Some [])
    commit_end w S (fun _ _ S' =>
      (forall c, S' FDat c -> c = Some d1) /\ (forall c, S' FKey c -> c = Some k1) /\
      (forall c, S' FLog c -> c = Some [])).
Proof using HL HLn.
  intros HT Hd Hk Hl [t Ht] Hm (A1 & C1 & D1).
  unfold commit_end, ebind, p_sync, p_trunc, do_unit. cbn [bind safe exec sexec fst snd].
  rewrite Hd. cbn [bind safe exec sexec fst snd]. rewrite Hk. cbn [bind safe exec sexec fst snd].
  rewrite Hl. cbn [bind safe exec sexec fst snd]. rewrite wget_wset_same. cbn [bind safe exec sexec fst snd].
  assert (E0 : btrunc 0 lfull = []) by (unfold btrunc; rewrite btake_0, N.sub_0_l; reflexivity).
  assert (Good : forall v d k, wget v FDat = Some d -> pref dat0 d -> wget v FKey = Some k -> key_mid L k ->
    wget v FLog = Some lfull -> before v).
  { intros v d k V1 [t' ->] V2 V3 V4. right. eapply midway_full; eauto. }
  splits.
  - intros v Hv. left. destruct (A1 _ (Hv FDat)) as (y & Ey & Hy). destruct (C1 _ (Hv FKey)) as (k & Ek & Hk').
    destruct (D1 _ (Hv FLog)) as (l & El & <-). eauto.
  - intros v Hv. left. pose proof (Hv FDat) as Vd. cbn [sset fname_eqb] in Vd.
    destruct (C1 _ (Hv FKey)) as (k & Ek & Hk'). destruct (D1 _ (Hv FLog)) as (l & El & <-).
    eapply Good; eauto. exists t; auto.
  - intros v Hv. left. pose proof (Hv FDat) as Vd. pose proof (Hv FKey) as Vk. cbn [sset fname_eqb] in Vd, Vk.
    destruct (D1 _ (Hv FLog)) as (l & El & <-). eapply Good; eauto. exists t; auto.
  - intros v Hv. pose proof (Hv FDat) as Vd. pose proof (Hv FKey) as Vk. pose proof (Hv FLog) as Vl.
    cbn [sset fname_eqb log_in_order] in Vd, Vk, Vl. destruct Vl as [Vl|Vl].
    + left. destruct (D1 _ Vl) as (l & El & <-). eapply Good; eauto. exists t; auto.
    + right. rewrite E0 in Vl. auto.
  - intros v Hv. pose proof (Hv FDat) as Vd. pose proof (Hv FKey) as Vk. pose proof (Hv FLog) as Vl.
    cbn [sset fname_eqb log_in_order] in Vd, Vk, Vl. right. rewrite E0 in Vl. auto.
  - intros c. cbn [sset fname_eqb]. auto.
  - intros c. cbn [sset fname_eqb]. auto.
  - intros c. cbn [sset fname_eqb]. rewrite E0. auto.
Qed.
End Pre.

(** ** The whole commit *)
(** The data and key files are those of [w] and nothing is under way. *)
Definition settled (w v : world) : Prop :=
  wget v FDat = wget w FDat /\ wget v FKey = wget w FKey /\
  (wget v FLog = None \/ exists l, wget v FLog = Some l /\ blen l < log_hdr_size).
Definition settled_surv (w : world) (S : surv) : Prop :=
  (forall c, S FDat c -> c = wget w FDat) /\ (forall c, S FKey c -> c = wget w FKey) /\
  (forall c, S FLog c -> c = None \/ c = Some []).

Lemma settled_on_disk w S v : settled_surv w S -> on_disk S v -> settled w v.
Proof.
  intros (A & B & C) H. unfold settled. splits; auto. destruct (C _ (H FLog)) as [E|E]; auto.
  right. eexists; split; [exact E|]. reflexivity.
Qed.

Lemma settled_rest recs T w S : disk e p recs T w -> settled_surv w S -> rest_surv recs T S.
Proof.
  intros [Hd Hk _ _ _ _ _] (A & B & C). rewrite Hd in A. rewrite Hk in B. unfold rest_surv. splits; auto.
Qed.
Lemma settled_at_rest recs T w v : disk e p recs T w -> settled w v -> at_rest recs T v.
Proof.
  intros [Hd Hk _ _ _ _ _] (A & B & C). rewrite Hd in A. rewrite Hk in B. unfold at_rest. splits; auto.
Qed.

Lemma log_lrecs kh T0 c :
  (forall n q, In (n, q) c -> n < blen T0 /\ brep kh q (nthN T0 n b0)) ->
  flat_map log_record c = enc_lrecs (map (fun nb => (fst nb, nthN T0 (fst nb) b0)) c).
Proof.
  induction c as [|[n q] c IH]; intros Hc; [reflexivity|].
  cbn [flat_map map enc_lrecs]. rewrite IH by (intros; apply Hc; simpl; auto). f_equal.
  unfold log_record, enc_lrec. cbn [fst snd]. f_equal.
  destruct (Hc n q) as [_ Hr]; [simpl; auto|]. eapply compact_rep; exact Hr.
Qed.

Lemma commit_safe recs T s w S :
  sinv e p recs T s w -> settled_surv w S ->
  safe ord (fun v => before recs T v \/ exists w1 s1, run (commit e s) w = (w1, Ok s1) /\ settled w1 v) (commit e s) w S
    (fun r w1 S' => match r with Ok _ => settled_surv w1 S' | Er _ => True end).
Proof.
  intros Hi HSs. pose proof (si_disk _ _ _ _ _ _ Hi) as Hd.
  pose proof (settled_rest _ _ _ _ Hd HSs) as HS.
  destruct (disk_pow e p Hp recs T w Hd) as (HT & _).
  pose proof (kfile_len e p Hp _ _ _ Hd) as HK.
  destruct (si_kh _ _ _ _ _ _ Hi) as (B & Hkh).
  destruct (commit_data_run e p Hp recs T s w Hi) as (news & _ & _ & Hcase).
  assert (HB : safe ord (before recs T) (commit_begin e (st_kh s)) w S (fun _ _ S' =>
    S' FDat = S FDat /\ S' FKey = S FKey /\ S' FLog = fun c => c = Some (lhead recs T))).
  { rewrite Hkh. apply safe_begin; auto; try apply Hd. apply Hi. }
  assert (HS2 : forall S1, S1 FDat = S FDat /\ S1 FKey = S FKey /\ S1 FLog = (fun c => c = Some (lhead recs T)) ->
    S2 recs (eq (key0 T)) (eq (lhead recs T)) S1).
  { intros S1 (E1 & E2 & E3). destruct HS as (A & C & D). unfold S2. rewrite E1, E2, E3. splits.
    - intros c Hc. apply A in Hc. exists (dat0 recs). split; auto. apply pref_refl.
    - intros c Hc. apply C in Hc. exists (key0 T). auto.
    - intros c Hc. exists (lhead recs T). auto. }
  set (G := fun v => before recs T v \/ exists w1 s1, run (commit e s) w = (w1, Ok s1) /\ settled w1 v).
  assert (HG : forall v, before recs T v -> G v) by (intros v Hv; left; auto).
  destruct Hcase as [(st & T' & Hc)|(w' & _ & Hrun & Hrb & Hrd)].
  - destruct (commit_ok e p Hp Hit _ _ _ _ _ _ _ Hi Hc) as (Hrun & _).
    destruct (commit_rest e p Hp Hit _ _ _ _ _ _ _ Hi Hc) as (R1 & R2 & R3 & R4).
    set (recs' := recs ++ map rec_of (pl_map (st_p1 s)) ++ news) in *.
    set (L := map (fun nb => (fst nb, nthN T (fst nb) b0)) (e_iter e (cs_c0 st))).
    pose proof (cr_cinv _ _ _ _ _ _ _ _ _ Hc) as Hci.
    set (c0 := cs_c0 st) in *. set (c1 := cs_c1 st) in *.
    assert (Hin0 : forall n q, In (n, q) (e_iter e c0) -> n < blen T /\ brep (st_kh s) q (nthN T n b0)).
    { intros n q Hin. apply (ci_c0 _ _ _ _ _ Hci). apply cache_In_find; [apply Hci|].
      eapply Permutation_in; [apply Permutation_sym, Hit|exact Hin]. }
    assert (HL : Forall (valid_lrec T) L).
    { unfold L. rewrite Forall_forall. intros r Hr. apply in_map_iff in Hr as ([n q] & <- & Hin).
      split; cbn [fst snd]; auto. apply (Hin0 _ _ Hin). }
    assert (HLd : NoDup (map fst L)).
    { unfold L. rewrite map_map. cbn [fst]. eapply Permutation_NoDup; [|apply (ci_nd0 _ _ _ _ _ Hci)].
      apply Permutation_map. apply Hit. }
    assert (HLn : blen L <= blen T).
    { assert (X : (length (map fst L) <= length (map N.of_nat (seq 0 (length T))))%nat).
      { apply NoDup_incl_length; auto. intros n Hn. apply in_map_iff in Hn as (r & <- & Hr).
        rewrite Forall_forall in HL. destruct (HL _ Hr) as [Hlt _].
        apply in_map_iff. exists (N.to_nat (fst r)). split; [lia|]. apply in_seq. unfold blen in Hlt. lia. }
      rewrite !map_length, seq_length in X. unfold blen. lia. }
    assert (Hlog1 : log1 e recs T s st = lfull recs T L).
    { unfold log1, lfull. fold c0. rewrite (log_lrecs (st_kh s) T _ Hin0). fold L.
      rewrite Hkh. reflexivity. }
    assert (Hfst : forall n, In n (map fst (e_iter e c0)) -> exists r, In r L /\ fst r = n).
    { intros n Hn. apply in_map_iff in Hn as ([m q] & E & Hin). cbn [fst] in E. subst m.
      exists (n, nthN T n b0). split; auto. unfold L. apply in_map_iff. exists (n, q). auto. }
    assert (Hin1 : forall n q, In (n, q) (e_iter e c1) ->
      blen (bk_padded (bk_of_blob q)) = bs /\ (n < blen T -> exists r, In r L /\ fst r = n)).
    { intros n q Hin.
      assert (Hf : cache_find c1 n = Some q).
      { apply cache_In_find; [apply Hci|]. eapply Permutation_in; [apply Permutation_sym, Hit|exact Hin]. }
      split.
      - destruct (ci_c1 _ _ _ _ _ Hci _ _ Hf) as [Hn Hr].
        assert (Ebs : kh_block_size (st_kh s) = bs) by (rewrite Hkh; reflexivity).
        rewrite (padded_rep _ _ _ _ Hr). rewrite Ebs.
        apply blen_enc_block. pose proof (rep_cap _ _ _ _ Hr) as Hcap. rewrite Ebs in Hcap.
        destruct (cap_bound bs) as [X|X]; [clear - X Hcap; unfold bucket_size in *; lia|].
        pose proof (p_cap p Hp). lia.
      - intros Hlt. apply Hfst.
        assert (cache_find c0 n <> None) as Hne.
        { apply (ci_01 _ _ _ _ _ Hci n Hlt). rewrite Hf. discriminate. }
        destruct (cache_find c0 n) as [q0|] eqn:F; [|congruence].
        apply cache_find_In in F. apply in_map_iff. exists (n, q0). split; auto.
        eapply Permutation_in; [apply Hit|exact F]. }
    set (w1 := wset w FLog (Some (log0 e (st_kh s) recs T))) in *.
    set (w2 := World (Some (db_hdr p ++ enc_recs recs')) (Some (kfile bs (db_kb e p) T))
              (Some (log0 e (st_kh s) recs T))) in *.
    set (w3 := World (Some (db_hdr p ++ enc_recs recs')) (Some (kfile bs (db_kb e p) T))
              (Some (log1 e recs T s st))) in *.
    set (w4 := World (Some (db_hdr p ++ enc_recs recs')) (Some (kfile bs (db_kb e p) T'))
              (Some (log1 e recs T s st))) in *.
    set (w5 := World (Some (db_hdr p ++ enc_recs recs')) (Some (kfile bs (db_kb e p) T')) (Some [])) in *.
    assert (Hcd : run (commit_data e (st_kh s) (st_thresh s) (st_frac s) (st_buckets s) (st_modulus s)
                   (pl_map (st_p1 s))) w1 = (w2, Ok st)).
    { rewrite <- R1. exact (cr_data _ _ _ _ _ _ _ _ _ Hc). }
    assert (Hpd : pref (dat0 recs) (db_hdr p ++ enc_recs recs')).
    { unfold dat0, recs'. rewrite enc_recs_app, app_assoc. apply pref_app. }
    eapply (safe_weaken _ (fun v => before recs T v \/ settled w5 v));
      [|intros v [Hv|Hv]; [left; exact Hv|right; do 2 eexists; split; [exact Hrun|exact Hv]]|intros a b c X; exact X].
    unfold commit. cbv zeta.
    set (G' := fun v => before recs T v \/ settled w5 v).
    assert (HG' : forall v, before recs T v -> G' v) by (intros v Hv; left; auto).
    eapply safe_ebind_run; [exact (cr_begin _ _ _ _ _ _ _ _ _ Hc)|
      eapply safe_weaken; [exact HB|exact HG'|intros a b c X; exact X]|].
    cbv beta. intros S1 HS1. apply HS2 in HS1.
    eapply safe_ebind_run; [exact Hcd|eapply safe_weaken; [eapply safe_data|exact HG'|intros a b c X; exact X]|];
      [exact HT| |apply pref_refl|exact HS1|].
    { fold w1. unfold w1. rewrite wget_wset_other by discriminate. apply Hd. }
    cbv beta. intros S3 HS3.
    eapply safe_ebind_run; [exact R2|eapply safe_weaken; [eapply (safe_log recs T L HL HLn)|exact HG'|intros a b c X; exact X]|];
      [exact HT| | |exact HS3|].
    { unfold w2. cbn [wget w_log]. rewrite Hkh. reflexivity. }
    { apply (log_lrecs (st_kh s) T _ Hin0). }
    cbv beta. intros S4 HS4.
    assert (HS4' : S2 recs (key_mid T L) (eq (lfull recs T L)) S4).
    { destruct HS4 as (A & C & D). unfold S2. splits; auto. intros c X. destruct (C _ X) as (y & -> & <-).
      exists (key0 T). split; auto. apply key_mid_refl. }
    assert (Ebs : kh_block_size (st_kh s) = bs) by (rewrite Hkh; reflexivity).
    rewrite Ebs in R3 |- *.
    assert (Hk4 : safe ord (before recs T) (commit_key bs (e_iter e c1)) w3 S4
      (fun _ w' S' => (exists k, wget w' FKey = Some k /\ key_mid T L k) /\ S2 recs (key_mid T L) (eq (lfull recs T L)) S')).
    { apply (safe_key recs T L HL HLn _ _ _ (key0 T)); auto. apply key_mid_refl. }
    eapply safe_ebind_run; [exact R3|eapply safe_weaken; [exact Hk4|exact HG'|intros a b c X; exact X]|].
    cbv beta. intros S5 ((k5 & Hk5 & Hm5) & HS5).
    assert (Hk5' : wget w4 FKey = Some (key0 T')) by reflexivity.
    rewrite Hk5' in Hk5. injection Hk5 as <-.
    eapply safe_ebind_run; [exact R4|eapply safe_weaken; [eapply (safe_end recs T L HL HLn)| |intros a b c X; exact X]|];
      [exact HT|reflexivity|reflexivity| |exact Hpd|exact Hm5|exact HS5| |].
    { exact (f_equal Some Hlog1). }
    { intros v [Hv|(V1 & V2 & V3)]; [left; auto|]. right. unfold settled. splits; auto.
      right. exists []. split; auto. reflexivity. }
    cbv beta. intros S6 (A & C & D). simpl. split.
    { intros v Hv. right. unfold settled. splits; auto. right. exists []. split; [auto|reflexivity]. }
    unfold settled_surv. splits; auto.
  - unfold commit. cbv zeta.
    eapply safe_ebind_run; [exact Hrb|eapply safe_weaken; [exact HB|exact HG|intros a b c X; exact X]|].
    cbv beta. intros S1 HS1. apply HS2 in HS1.
    eapply safe_ebind_er; [exact Hrd|eapply safe_weaken; [eapply safe_data|exact HG|intros a b c X; exact X]|];
      [exact HT| |apply pref_refl|exact HS1|].
    { rewrite wget_wset_other by discriminate. apply Hd. }
    cbv beta. intros S3 (A & C & D). split; auto.
    intros v Hv. apply HG. right.
    destruct (A _ (Hv FDat)) as (y & Ey & t & ->). destruct (C _ (Hv FKey)) as (k & Ek & <-).
    destruct (D _ (Hv FLog)) as (l & El & <-).
    exists t, (key0 T), [], []. cbn [enc_lrecs flat_map]. rewrite !app_nil_r. splits; auto.
    apply N.le_0_l. apply cut_nil; auto. apply key_mid_refl.
Qed.
End Crash.
