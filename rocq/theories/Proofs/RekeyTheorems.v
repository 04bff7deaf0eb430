(** Theorems about rekey() in terms of histories and files. *)
From Verif Require Import Model.Bytes Model.Err Model.Field Model.Format Model.IO
  Model.BulkIO Model.Bucket Model.Pool Model.Recover Model.Create Model.Store Spec Model.History
  Model.Crash Model.Rekey Model.RekeyLife SpecHeader SpecRekey
  Proofs.BytesFacts Proofs.FieldFacts Proofs.IOFacts Proofs.PoolFacts Proofs.BucketFacts
  Proofs.BulkFacts Proofs.HashFacts Proofs.Table Proofs.Lookup Proofs.SplitFacts
  Proofs.CommitFacts Proofs.CommitInv Proofs.CommitRun Proofs.HeaderFacts Proofs.SafeFacts Proofs.StoreInv
  Proofs.OpenFacts Proofs.HistoryFacts Proofs.LifeFacts Proofs.RekeyFacts Proofs.RekeyRun Proofs.RekeyHist
  Proofs.RekeyCrash.

Opaque loop.

Lemma xlife_answers e a l : good_args a -> iter_ok e -> Forall (valid_xop (ca_key_size a)) l ->
  within_xlimit e a l -> snd (xlife e a l) = spec_outs sempty (map as_reopen l).
Proof.
  intros Ha Hit Hv Hs. unfold within_xlimit in Hs.
  destruct (xlived_ok e a l Ha Hit Hv) as [(q & recs & T & s & w & H & _)|[Hn (w & n & _ & Hnl & H)]]; rewrite H in *.
  - reflexivity.
  - cbn [fst] in Hs. tauto.
Qed.

Lemma xlife_prefix e a l : good_args a -> iter_ok e -> Forall (valid_xop (ca_key_size a)) l ->
  snd (xlife e a l) = spec_outs sempty (map as_reopen l) \/
  ~ within_xlimit e a l /\ exists n, (n < length l)%nat /\
    snd (xlife e a l) = firstn n (spec_outs sempty (map as_reopen l)) ++ [OAborted].
Proof.
  intros Ha Hit Hv. unfold within_xlimit.
  destruct (xlived_ok e a l Ha Hit Hv) as [(q & recs & T & s & w & H & _)|[Hn (w & n & Hl & Hnl & H)]]; rewrite H in *.
  - left. reflexivity.
  - right. cbn [fst snd]. split; [tauto|eauto].
Qed.

Lemma xlived_small e a l : good_args a -> iter_ok e -> Forall (valid_xop (ca_key_size a)) l -> small_xhistory l ->
  exists w s, xlife e a l = (w, Some s, spec_outs sempty (map as_reopen l)).
Proof.
  intros Ha Hit Hv Hs.
  destruct (xlived_ok e a l Ha Hit Hv) as [(q & recs & T & s & w & H & _)|[Hn _]]; [eauto|contradiction].
Qed.

Lemma calls_reports total X t : StronglySorted (fun a b => fst a <= fst b) t ->
  Forall (fun c => fst c <= X /\ snd c = total) t -> X <= total ->
  forall from, Forall (fun c => from <= fst c) t -> reports from total t.
Proof.
  intros Hs Hf HX. induction Hs as [|[x y] t Hs IH Hx]; intros from Hfr; cbn [reports]; [exact I|].
  inversion Hf as [|? ? [H1 H2] Hf']; subst. inversion Hfr as [|? ? H3 Hfr']; subst. cbn [fst snd] in *.
  split; [reflexivity|]. split; [lia|]. apply IH; auto.
Qed.

Lemma passes_le nb c : 1 <= nb -> 1 <= c -> (nb + c - 1) / c <= nb.
Proof. intros. apply N.div_le_upper_bound; [lia|]. nia. Qed.

Lemma rk_reports a lf nb D t : rekey_ready a lf nb -> ra_buffer_size a < 2 ^ 64 ->
  nb * D < 2 ^ 64 -> rk_calls a nb D t -> reports 0 ((nb + rekey_chunk a - 1) / rekey_chunk a * D) t.
Proof.
  intros (A1 & A2 & A3 & A4 & A5 & A6 & A7 & A8) Hb HD [Hs Hf].
  change (2 ^ 64) with 18446744073709551616 in *.
  set (c := rekey_chunk a) in *. assert (Hc : 1 <= c) by (unfold c, rekey_chunk; lia).
  assert (Hc2 : c <= 18446744073709551616 / 104).
  { unfold c, rekey_chunk. apply N.max_lub; [vm_compute; discriminate|].
    transitivity (ra_buffer_size a / 104); [apply N.div_le_compat_l; lia|apply N.div_le_mono; lia]. }
  assert (Hnb : nb <= 18446744073709551616 / 104) by (apply N.div_le_lower_bound; nia).
  change (18446744073709551616 / 104) with 177372539170284150 in *.
  pose proof (passes_le nb c A7 Hc) as Hp.
  assert (E : rekey_work a nb D = (nb + c - 1) / c * D).
  { unfold rekey_work. fold c. rewrite (N.mod_small (nb + c - 1)) by lia. apply N.mod_small. nia. }
  rewrite E in Hf. eapply (calls_reports _ ((nb + c - 1) / c * D)); eauto; [lia|].
  apply Forall_forall. intros x _. lia.
Qed.

(** Closing a store, erasing its key file and making a new one. *)
Lemma rekey_lived e a l r w s os : good_args a -> iter_ok e -> Forall (valid_xop (ca_key_size a)) l ->
  good_rekey r -> xlife e a l = (w, Some s, os) ->
  (exists d k, run (store_close e s) w = (World (Some d) (Some k) None, Ok tt) /\
    exists x k' t, run (rekey e r) (World (Some d) None None) = (World (Some (d ++ x)) (Some k') None, Ok t) /\
      forall nb, ra_buckets r = Some nb -> blen k' = (nb + 1) * ra_block_size r /\
        (ra_buffer_size r < 2 ^ 64 -> nb * blen d < 2 ^ 64 -> exists total, reports 0 total t)) \/
  (~ small_xhistory (l ++ [XRekey r]) /\ exists w', near_limit w' /\
    (run (store_close e s) w = (w', Er EAssert) \/
     exists d k, run (store_close e s) w = (World (Some d) (Some k) None, Ok tt) /\
       run (rekey e r) (World (Some d) None None) = (w', Er EAssert))).
Proof.
  intros Ha Hit Hv Hg E.
  destruct (xlived_ok e a l Ha Hit Hv) as [(q & recs & T & s' & w' & Ho & Hq & Hs & Hz & _)|[_ (w' & n & _ & _ & Ho)]];
    rewrite E in Ho; [|discriminate].
  assert (s' = s /\ w' = w) by (split; congruence). destruct H as [-> ->]. clear Ho.
  destruct (rekey_op_ok e q recs T s w _ _ r Hq Hit Hg Hs Hz)
      as [(lf & nb & x & news & T' & s2 & w2 & t & Hto & _)|[Hbig (w' & _ & Hnl & Hc)]].
  2: { right. split; [|exists w'; split; [exact Hnl|exact Hc]].
    apply not_small_x.
    assert (M : map as_reopen (l ++ [XRekey r]) = map as_reopen l ++ [OpReopen]) by (rewrite map_app; reflexivity).
    rewrite M.
    assert (I1 : inserts (map as_reopen l ++ [OpReopen]) = inserts (map as_reopen l)).
    { generalize (map as_reopen l). intros m. clear. induction m as [|c m IH]; cbn [inserts app]; [reflexivity|]. lia. }
    assert (I2 : insert_bytes (map as_reopen l ++ [OpReopen]) = insert_bytes (map as_reopen l)).
    { generalize (map as_reopen l). intros m. clear. induction m as [|c m IH]; cbn [insert_bytes app]; [reflexivity|]. lia. }
    assert (I3 : rekeys (l ++ [XRekey r]) = rekeys l + 1).
    { clear. induction l as [|[c|r'] l IH]; cbn [rekeys app]; lia. }
    rewrite I1, I2, I3. unfold too_long in Hbig. unfold too_long_x. clear - Hbig. lia. }
  left.
    destruct (rt_close _ _ _ _ _ _ _ _ _ _ _ _ _ _ Hto) as (w' & C1 & C2 & C3 & (K & C4) & C5 & C6).
    set (d := db_hdr q ++ enc_recs (recs ++ x)) in *.
    exists d, K.
    assert (Ew : w' = World (Some d) (Some K) None).
    { destruct w' as [v1 v2 v3]. change (v1 = Some d) in C2. change (v2 = Some K) in C4. change (v3 = None) in C3.
      subst. reflexivity. }
    rewrite Ew in C1, C5. split; [exact C1|].
    pose proof (rt_sinv _ _ _ _ _ _ _ _ _ _ _ _ _ _ Hto) as Hi2.
    pose proof (si_disk _ _ _ _ _ _ Hi2) as Hd2.
    exists (enc_recs news), (kfile (ra_block_size r) (db_kb e (rekeyed q r lf nb)) T'), t.
    assert (W2 : wset w2 FLog None = World (Some (d ++ enc_recs news)) (Some (kfile (ra_block_size r) (db_kb e (rekeyed q r lf nb)) T')) None).
    { pose proof (dk_dat _ _ _ _ _ Hd2) as D2. pose proof (dk_key _ _ _ _ _ Hd2) as K2.
      destruct w2 as [v1 v2 v3]. change (v1 = Some (db_hdr (rekeyed q r lf nb) ++ enc_recs ((recs ++ x) ++ news))) in D2.
      change (v2 = Some (kfile (ra_block_size r) (db_kb e (rekeyed q r lf nb)) T')) in K2. rewrite D2, K2.
      unfold d. rewrite (enc_recs_app (recs ++ x) news), app_assoc. reflexivity. }
    rewrite W2 in C5. split; [exact C5|].
    intros nb' Hnb'. pose proof (rt_ready _ _ _ _ _ _ _ _ _ _ _ _ _ _ Hto) as Hready.
    assert (nb' = nb) by (destruct Hready as (_ & _ & _ & _ & _ & X & _); congruence). subst nb'.
    split.
    + pose proof (kfile_len e (rekeyed q r lf nb) (rekeyed_ok q r lf nb Hq Hready) _ _ _ Hd2) as Hlen.
      rewrite (rt_B _ _ _ _ _ _ _ _ _ _ _ _ _ _ Hto) in Hlen. exact Hlen.
    + intros Hbuf HD. eexists. eapply rk_reports; eauto. apply (rt_calls _ _ _ _ _ _ _ _ _ _ _ _ _ _ Hto).
Qed.

(** Stopping rekey(). *)
Section Stop.
Variables (e : env) (r : rekey_args) (w : world) (d : bytes).
Hypothesis Hg : good_rekey r.
Hypothesis (Wd : w_dat w = Some d) (Wk : w_key w = None) (Wl : w_log w = None).
Hypothesis (Dok : bytes_ok d) (Dl : 92 <= blen d) (Db : blen d < 2 ^ 64).
Hypothesis Dchk : first_failed (dat_checks d) = None.
Notation ord := log_in_order.

Lemma rekey_stopped p1 w1 S1 v :
  steps ord (rekey e r) w (durable w) p1 w1 S1 -> (forall t, p1 <> Ret (Ok t)) -> on_disk S1 v ->
  exists res, run (recover e) v = (World (Some d) None None, res) /\
    (res = Ok tt \/ res = Er no_key_file \/ res = Er ENoEnt).
Proof using All.
  intros Hs Hn Hv. destruct (good_rekey_ready r Hg) as (lf & nb & Hr).
  apply (rk_mid_recover e r lf nb d Hr Dok Dl Db Dchk).
  apply (rekey_until e r lf nb d Hr Dok Dl Db Dchk w Wd Wk Wl p1 w1 S1 Hs Hn v Hv).
Qed.

Lemma rekey_recovery_stopped p1 w1 S1 v v' :
  steps ord (rekey e r) w (durable w) p1 w1 S1 -> (forall t, p1 <> Ret (Ok t)) -> on_disk S1 v ->
  interrupted ord e v v' ->
  (exists x, w_dat v' = Some (d ++ x)) /\
  forall w2 res, run (recover e) v' = (w2, res) -> w_dat w2 = Some d.
Proof using All.
  intros Hs Hn Hv Hi. destruct (good_rekey_ready r Hg) as (lf & nb & Hr).
  assert (M : rk_rec e r lf nb d v').
  { eapply rk_rec_interrupted; eauto. apply rk_mid_rec; auto.
    apply (rekey_until e r lf nb d Hr Dok Dl Db Dchk w Wd Wk Wl p1 w1 S1 Hs Hn v Hv). }
  split; [eapply rk_rec_done; eauto|].
  intros w2 res Hrun. eapply (rk_rec_recovered e r lf nb d); eauto.
Qed.

Lemma rekey_data_kept v : crash ord (rekey e r) w (durable w) v -> exists x, w_dat v = Some (d ++ x).
Proof using All.
  intros Hc. destruct (good_rekey_ready r Hg) as (lf & nb & Hr).
  eapply (safe_crash ord _ _ _ _ _ _ (rekey_kept e r lf nb d Hr Dok Dl Db Dchk w Wd Wk Wl) Hc).
Qed.
End Stop.

(** ** Writes that are lost *)
From Verif Require Import Proofs.Witness.

Fixpoint no_sync {A} (n : nat) (f : fname) (p : prog A) (w : world) : bool :=
  match n, p with
  | S n', Do o k => match o with IoSync g => negb (fname_eqb g f) | _ => true end &&
                    no_sync n' f (k (snd (exec o w))) (fst (exec o w))
  | _, _ => true
  end.

Lemma sexec_keeps ordf o w (S : surv) f c :
  match o with IoSync g => fname_eqb g f = false | _ => True end -> S f c -> sexec ordf o w S f c.
Proof.
  intros Ho Hc.
  assert (U : forall g (P : option bytes -> Prop), (g = f -> P c) -> sset S g P f c).
  { intros g P HP. unfold sset. destruct (fname_eqb g f) eqn:E; auto. apply HP. destruct g, f; congruence || discriminate E. }
  destruct o as [g|g|g|g|g off len|g ap off d|g|g n]; cbn [sexec]; auto;
    destruct (wget w g) as [x|]; auto.
  - apply U. intros ->. left. exact Hc.
  - apply U. intros ->. left. exact Hc.
  - destruct (ap && negb (off =? blen x)); auto. apply U. intros ->. left. exact Hc.
  - unfold sset. rewrite Ho. exact Hc.
  - apply U. intros ->. left. exact Hc.
Qed.

Lemma no_sync_keeps ordf {A} n f c : forall (p : prog A) w p' w' (S : surv),
  after_ops n p w = Some (p', w') -> no_sync n f p w = true -> S f c ->
  exists S', steps ordf p w S p' w' S' /\ S' f c.
Proof.
  induction n as [|n IH]; intros p w p' w' S H Hn Hc; cbn [after_ops] in H.
  - injection H as <- <-. exists S. split; [constructor|exact Hc].
  - destruct p as [a|o k]; [discriminate|]. cbn [no_sync] in Hn. apply andb_prop in Hn as [H1 H2].
    destruct (IH _ _ _ _ (sexec ordf o w S) H H2) as (S' & Hs & Hc').
    + apply sexec_keeps; auto. destruct o; auto. apply negb_true_iff. exact H1.
    + exists S'. split; auto. constructor. exact Hs.
Qed.

Lemma steps_trans ordf {A} (p : prog A) w S p1 w1 S1 p2 w2 S2 :
  steps ordf p w S p1 w1 S1 -> steps ordf p1 w1 S1 p2 w2 S2 -> steps ordf p w S p2 w2 S2.
Proof. induction 1; auto. intros. constructor. auto. Qed.

Lemma steps_lost ordf {A} m n f (p : prog A) w S p1 w1 p2 w2 :
  after_ops m p w = Some (p1, w1) -> after_ops n p1 w1 = Some (p2, w2) -> no_sync n f p1 w1 = true ->
  on_disk S w -> exists S2, steps ordf p w S p2 w2 S2 /\ on_disk S2 (wset w2 f (wget w1 f)).
Proof.
  intros H1 H2 Hn Hd. destruct (after_steps ordf m p w p1 w1 S H1) as (S1 & Hs1).
  pose proof (live_steps ordf _ _ _ _ _ _ Hs1 Hd) as Hd1.
  destruct (no_sync_keeps ordf n f (wget w1 f) p1 w1 p2 w2 S1 H2 Hn (Hd1 f)) as (S2 & Hs2 & Hc).
  exists S2. split; [eapply steps_trans; eauto|].
  pose proof (live_steps ordf _ _ _ _ _ _ Hs2 Hd1) as Hd2.
  intros g. destruct (fname_eqb f g) eqn:E.
  - assert (f = g) by (destruct f, g; simpl in E; congruence). subst g. rewrite wget_wset_same. exact Hc.
  - rewrite wget_wset_other by (intros ->; destruct g; discriminate E). apply Hd2.
Qed.
