(** The order in which values reach the data file. *)
From Verif Require Import Model.Bytes Model.Err Model.Field Model.Format Model.IO
  Model.BulkIO Model.Bucket Model.Pool Model.Recover Model.Create Model.Store Model.History Model.Visit
  Proofs.BytesFacts Proofs.FieldFacts Proofs.IOFacts Proofs.PoolFacts Proofs.BucketFacts
  Proofs.BulkFacts Proofs.HashFacts Proofs.Table Proofs.Lookup Proofs.SplitFacts
  Proofs.CommitFacts Proofs.CommitInv Proofs.CommitRun Proofs.HeaderFacts Proofs.StoreInv
  Proofs.OpenFacts Proofs.HistoryFacts Proofs.LifeFacts
  Proofs.FormatFacts Proofs.RefuseFacts Proofs.VisitFacts Spec SpecFormat SpecHeader SpecVisit Model.Events.

Definition kv (y : pelem) : bytes * bytes := (pe_key y, pe_data y).

Lemma insert_pool e s k v w w' s' : run (store_insert e s k v) w = (w', Ok s') ->
  st_p1 s' = pool_insert (st_p1 s) (hash (e_hasher e) (kh_salt (st_kh s)) k) k v.
Proof.
  unfold store_insert. destruct (st_ec s); [discriminate|].
  destruct (_ || _); [discriminate|].
  destruct (pool_find (st_p1 s) k); [discriminate|]. destruct (pool_find (st_p0 s) k); [discriminate|].
  rewrite run_ebind. destruct (run _ w) as [w1 [[|]|er]]; try discriminate.
  unfold pret. cbn [run]. intros X. injection X; intros; subst. reflexivity.
Qed.

Lemma kv_insert l x : pmap_find l (pe_key x) = None ->
  map kv (pmap_insert l x) = put_sorted (kv x) (map kv l).
Proof.
  induction l as [|y l IH]; intros Hf; [reflexivity|].
  cbn [pmap_find] in Hf. destruct (beq (pe_key y) (pe_key x)) eqn:E; [discriminate|].
  cbn [pmap_insert map put_sorted kv fst].
  destruct (blt (pe_key x) (pe_key y)) eqn:L1.
  - destruct (blt (pe_key y) (pe_key x)) eqn:L2; auto. pose proof (blt_trans _ _ _ L1 L2) as X. rewrite blt_irrefl in X. discriminate.
  - destruct (blt (pe_key y) (pe_key x)) eqn:L2.
    + cbn [map]. rewrite IH by auto. reflexivity.
    + exfalso. apply beq_neq in E. apply E. apply blt_total; auto.
Qed.

Section Written.
Variables (e : env) (p : dbp).
Hypothesis Hp : dbp_ok p.
Hypothesis Hit : iter_ok e.

Lemma do_ops_written l : forall recs T s w i b m w' s' os,
  sinv e p recs T s w -> szinv recs s i b -> Forall (valid_op (db_key_size p)) l ->
  (forall k, m k = abs recs s k) ->
  do_ops e s l w = (w', Some s', os) ->
  exists x T' i' b', sinv e p (recs ++ x) T' s' w' /\ szinv (recs ++ x) s' i' b' /\
    kvs (recs ++ x) = written m (map kv (pl_map (st_p1 s))) (kvs recs) l.
Proof using Hp Hit.
  induction l as [|c l IH]; intros recs T s w i b m w' s' os Hi Hz Hv Hm Hd.
  - cbn [do_ops] in Hd. injection Hd; intros; subst. exists [], T, i, b. rewrite app_nil_r. auto.
  - inversion Hv as [|? ? Hc Hl]; subst. cbn [do_ops] in Hd.
    destruct (do_op_ok e p Hp Hit _ _ _ _ _ _ _ m Hi Hz Hc Hm) as [(x & T1 & s1 & w1 & Hr & Hi1 & Hz1 & Hm1 & [Sr Sc _ Sk])|[Hbig (w1 & o1 & Hr & _)]].
    2: { rewrite Hr in Hd. destruct o1; discriminate. }
    pose proof Hr as Hr0. rewrite Hr in Hd.
    assert (Ho : snd (spec_step m c) <> OAborted) by apply spec_step_not_aborted.
    assert (Hd' : exists os', do_ops e s1 l w1 = (w', Some s', os')).
    { destruct (do_ops e s1 l w1) as [[w2 s2] os2] eqn:E2.
      destruct (snd (spec_step m c)); try congruence; injection Hd; intros; subst; eauto. }
    destruct Hd' as (os' & Hd').
    destruct (IH _ _ _ _ _ _ _ _ _ _ Hi1 Hz1 Hl Hm1 Hd') as (y & T2 & i2 & b2 & Hi2 & Hz2 & Hk).
    exists (x ++ y), T2, i2, b2. rewrite app_assoc. split; [exact Hi2|]. split; [exact Hz2|]. rewrite Hk, Sk. clear IH Hd Hk.
    destruct c as [k v|k| |]; cbn [written spec_step fst snd] in *.
    + rewrite do_op_insert in Hr0. destruct (run (store_insert e s k v) w) as [w3 r3] eqn:Ei.
      destruct (m k) eqn:Em; cbn [fst snd] in *.
      * destruct r3 as [s3|er]; cbn [insert_out] in Hr0; [discriminate|].
        injection Hr0; intros; subst. reflexivity.
      * destruct r3 as [s3|er]; cbn [insert_out] in Hr0.
        -- injection Hr0; intros; subst. rewrite (insert_pool _ _ _ _ _ _ _ Ei).
           unfold pool_insert. cbn [pl_map]. rewrite kv_insert; [reflexivity|]. cbn [pe_key].
           rewrite Hm in Em. unfold abs, pool_find in Em.
           destruct (pmap_find (pl_map (st_p1 s)) k); [discriminate|reflexivity].
        -- exfalso. destruct er; discriminate.
    + rewrite do_op_fetch in Hr0. destruct (run (store_fetch e s k) w) as [w3 r3].
      destruct (m k); cbn [fst] in *; injection Hr0; intros; subst; reflexivity.
    + rewrite Sr. reflexivity.
    + rewrite Sr. reflexivity.
Qed.
End Written.

(** The data file of a database. *)
Lemma lived_written e a l w s : good_args a -> iter_ok e -> Forall (valid_op (ca_key_size a)) l ->
  lived e a l w s ->
  exists recs T i b, sinv e (dbp_of a) recs T s w /\ szinv recs s i b /\
    kvs recs = written sempty [] [] l.
Proof.
  intros Ha Hit Hv (os & Hl). destruct (good_args_ok a Ha) as (Hp & _).
  destruct (lived_start e a Ha Hit) as (s0 & w0 & Hl0 & Hs & He & Hf). rewrite Hl0 in Hl.
  destruct (do_ops_written e (dbp_of a) Hp Hit l [] [([], 0)] s0 w0 0 0 sempty w s os Hs) as (x & T & i & b & X).
  - split; rewrite He; reflexivity.
  - exact Hv.
  - intros k. unfold abs, pool_find. rewrite He. reflexivity.
  - exact Hl.
  - rewrite He in X. exists x, T, i, b. exact X.
Qed.

(** Records of the proofs and of the specification. *)
Definition rec_spec (r : drec) : record :=
  match r with DRec k v => Value k v | SRec es sp => Spill (enc_bucket es sp) end.

Lemma enc_rec_image r : enc_rec r = image (rec_spec r).
Proof.
  destruct r as [k v|es sp]; cbn [enc_rec rec_spec image].
  - rewrite wr48_be. reflexivity.
  - rewrite wr48_be, wr16_be, blen_enc_bucket. reflexivity.
Qed.

Lemma enc_recs_images recs : enc_recs recs = images (map rec_spec recs).
Proof.
  induction recs as [|r recs IH]; [reflexivity|].
  change (enc_recs (r :: recs)) with (enc_rec r ++ enc_recs recs).
  change (images (map rec_spec (r :: recs))) with (image (rec_spec r) ++ images (map rec_spec recs)).
  rewrite IH, enc_rec_image. reflexivity.
Qed.

Lemma values_kvs recs : values (map rec_spec recs) = kvs recs.
Proof. induction recs as [|[k v|es sp] recs IH]; simpl; congruence. Qed.

Lemma rec_spec_ok p recs : db_block_size p <= 65535 -> Forall (drec_ok p) recs ->
  Forall (record_ok (db_key_size p)) (map rec_spec recs).
Proof.
  intros Hb. induction 1 as [|r recs Hr _ IH]; constructor; auto.
  unfold drec_ok in Hr. destruct r as [k v|es sp]; cbn [rec_ok rec_spec record_ok] in *.
  - change (2 ^ 32) with 4294967296. tauto.
  - destruct Hr as [(_ & Hl & _)|(_ & _ & Hl & _)]; [|change (2 ^ 16) with 65536; rewrite blen_enc_bucket; unfold bucket_size; lia]. change (2 ^ 16) with 65536. rewrite blen_enc_bucket, Hl.
    destruct (cap_bound (db_block_size p)) as [E|E]; unfold bucket_size in *; lia.
Qed.

(** ** The calls of a visit *)
Lemma items_app a b : items (a ++ b) = items a ++ items b.
Proof. induction a as [|[k v|x y] a IH]; simpl; congruence. Qed.

Lemma no_error_nil cb : no_error cb [].
Proof. intros t1 k v t2 X. destruct t1; discriminate. Qed.

Lemma rev_case {A} (l : list A) : l = [] \/ exists l' z, l = l' ++ [z].
Proof. induction l as [|z l' _] using rev_ind; eauto. Qed.

Lemma no_error_progress cb t x y : no_error cb t -> no_error cb (t ++ [VProgress x y]).
Proof.
  intros H t1 k v t2 E. destruct (rev_case t2) as [->|(t3 & z & ->)].
  - apply (app_inj_tail t t1) in E as [_ E]. discriminate.
  - replace (t1 ++ VItem k v :: t3 ++ [z]) with ((t1 ++ VItem k v :: t3) ++ [z]) in E
      by (rewrite <- app_assoc; reflexivity).
    apply app_inj_tail in E as [E _]. eapply H; eauto.
Qed.

Lemma no_error_item cb t k v : no_error cb t -> cb t k v = None -> no_error cb (t ++ [VItem k v]).
Proof.
  intros H Hc t1 k' v' t2 E. destruct (rev_case t2) as [->|(t3 & z & ->)].
  - apply (app_inj_tail t t1) in E as [-> E]. injection E; intros; subst. auto.
  - replace (t1 ++ VItem k' v' :: t3 ++ [z]) with ((t1 ++ VItem k' v' :: t3) ++ [z]) in E
      by (rewrite <- app_assoc; reflexivity).
    apply app_inj_tail in E as [E _]. eapply H; eauto.
Qed.

Lemma spec_visit_calls cb total l : forall off t t' o,
  spec_visit cb total off t l = (t', o) -> no_error cb t ->
  match o with
  | None => items t' = items t ++ values l /\ no_error cb t'
  | Some er => exists before k v rest, t' = before ++ [VItem k v] /\ cb before k v = Some er /\
      no_error cb before /\ items t' ++ rest = items t ++ values l
  end.
Proof.
  induction l as [|r l IH]; intros off t t' o Hs Hn; cbn [spec_visit] in Hs.
  - injection Hs; intros; subst. simpl. rewrite app_nil_r. auto.
  - destruct r as [k v|c].
    + destruct (cb t k v) as [er|] eqn:Ec.
      * injection Hs; intros; subst. exists t, k, v, (values l). split; [|split; [|split]]; auto.
        rewrite items_app. cbn [items values]. rewrite <- app_assoc. reflexivity.
      * apply IH in Hs.
        -- rewrite items_app in Hs. cbn [items values] in *.
           destruct o as [er|].
           ++ destruct Hs as (bf & k' & v' & rest & A & B & C & D). exists bf, k', v', rest.
              rewrite D, <- app_assoc. auto.
           ++ destruct Hs as [A B]. rewrite A, <- app_assoc. auto.
        -- change [VItem k v; VProgress (off + blen (image (Value k v))) total]
             with ([VItem k v] ++ [VProgress (off + blen (image (Value k v))) total]).
           rewrite app_assoc. apply no_error_progress, no_error_item; auto.
    + apply IH in Hs.
      -- rewrite items_app in Hs. cbn [items values] in *. rewrite app_nil_r in Hs. exact Hs.
      -- apply no_error_progress; auto.
Qed.

Lemma progress_app a : forall from total b, progress_ok from total a ->
  (forall x, from <= x <= total -> progress_ok x total b) -> from <= total ->
  progress_ok from total (a ++ b).
Proof.
  induction a as [|[k v|x y] a IH]; intros from total b Ha Hb Hf; cbn [app progress_ok] in *.
  - apply Hb. lia.
  - apply IH; auto.
  - destruct Ha as (-> & Hx & Ha). split; auto. split; auto. apply IH; auto.
    + intros z Hz. apply Hb. lia.
    + lia.
Qed.

(** The last report. *)
Fixpoint last_progress (from : N) (t : list vcall) : N :=
  match t with
  | [] => from
  | VItem _ _ :: t => last_progress from t
  | VProgress x _ :: t => last_progress x t
  end.
Lemma last_progress_app a : forall from b, last_progress from (a ++ b) = last_progress (last_progress from a) b.
Proof. induction a as [|[k v|x y] a IH]; intros from b; simpl; auto. Qed.

Lemma progress_add total t : forall from b, progress_ok from total t ->
  progress_ok (last_progress from t) total b -> progress_ok from total (t ++ b).
Proof.
  induction t as [|[k v|x y] t IH]; intros from b Ht Hb; cbn [app progress_ok last_progress] in *; auto.
  destruct Ht as (A & B & C). auto.
Qed.

Lemma spec_visit_progress cb total l : forall off t t' o,
  spec_visit cb total off t l = (t', o) -> progress_ok 0 total t -> last_progress 0 t <= off ->
  off + blen (images l) <= total ->
  progress_ok 0 total t' /\ (o = None -> l <> [] -> last_progress 0 t' = off + blen (images l)).
Proof.
  induction l as [|r l IH]; intros off t t' o Hs Hp Hl Ht; cbn [spec_visit] in Hs.
  - injection Hs; intros; subst. split; auto. congruence.
  - change (images (r :: l)) with (image r ++ images l) in *. rewrite blen_app in *.
    assert (Hrest : forall t1, progress_ok 0 total t1 -> last_progress 0 t1 = off + blen (image r) ->
      spec_visit cb total (off + blen (image r)) t1 l = (t', o) ->
      progress_ok 0 total t' /\ (o = None -> r :: l <> [] ->
        last_progress 0 t' = off + (blen (image r) + blen (images l)))).
    { intros t1 H1 H2 H3. pose proof H3 as H3'. apply IH in H3; auto; try lia.
      destruct H3 as [A B]. split; auto. intros Ho _. destruct l as [|r' l'].
      - cbn [spec_visit] in H3'. injection H3'; intros; subst. rewrite H2. unfold images; simpl. change (blen (@nil N)) with 0. lia.
      - rewrite B by congruence. lia. }
    destruct r as [k v|c].
    + destruct (cb t k v) as [er|] eqn:Ec.
      * injection Hs; intros; subst. split; [|discriminate]. apply progress_add; simpl; auto.
      * apply Hrest in Hs; auto.
        -- apply progress_add; auto. cbn [progress_ok]. split; auto. split; auto. lia.
        -- rewrite last_progress_app. reflexivity.
    + apply Hrest in Hs; auto.
      * apply progress_add; auto. cbn [progress_ok]. split; auto. split; auto. lia.
      * rewrite last_progress_app. reflexivity.
Qed.

(** ** visit() of a database *)
Lemma dat_checks_db p recs : dbp_ok p ->
  let d := db_hdr p ++ recs in
  first_failed (dat_checks d) = None /\ num_at 26 2 d = db_key_size p /\ bytes_ok (db_hdr p).
Proof.
  intros Hp d. assert (Hb : bytes_ok (db_hdr p)).
  { unfold db_hdr, enc_dat_header. rewrite !bytes_ok_app.
    assert (bytes_ok magic_dat) by (repeat constructor).
    auto 10 using bytes_ok_wr16, bytes_ok_wr64, bytes_ok_zeros. }
  assert (Hl : blen (db_hdr p) = 92) by apply p_hdr.
  assert (Dl : dat_hdr_size <= blen (db_hdr p)) by (unfold dat_hdr_size; lia).
  assert (Eb : forall o n, (o + n <= 92)%nat -> bytes_at o n d = bytes_at o n (db_hdr p)).
  { intros o n Hon. unfold d. unfold blen in Hl. rewrite <- (at_take o n 92 (db_hdr p ++ _)) by auto.
    rewrite firstn_app. replace (92 - length (db_hdr p))%nat with 0%nat by lia.
    rewrite app_nil_r. rewrite at_take by auto. reflexivity. }
  assert (Hdh : dh_of (db_hdr p) = db_dh p).
  { unfold dh_of, dat_hdr_size. rewrite <- Hl, bsub_all. unfold db_hdr. rewrite dec_enc_dat by (apply p_dat_fits; auto). reflexivity. }
  split; [|split]; auto.
  - assert (Ec : dat_checks d = dat_checks (db_hdr p)).
    { unfold dat_checks, text, num_at. rewrite !Eb by (simpl; lia). reflexivity. }
    rewrite Ec. pose proof (dat_verdict (db_hdr p) Hb Dl) as V. rewrite Hdh in V.
    unfold verdict in V. destruct (first_failed (dat_checks (db_hdr p))) as [er|]; auto.
    exfalso. unfold verify_dat, db_dh in V. cbn [dh_type dh_version dh_key_size] in V.
    rewrite beq_refl, N.eqb_refl in V. cbn [negb] in V.
    replace (db_key_size p <? 1) with false in V; [discriminate|].
    symmetry. apply N.ltb_ge. apply Hp.
  - unfold num_at. rewrite Eb by lia.
    change (be_value (bytes_at 26 2 (db_hdr p))) with (num_at (N.to_nat 26) 2 (db_hdr p)).
    rewrite <- (f16 (db_hdr p) dat_hdr_size Hb Dl 26) by (unfold dat_hdr_size; lia).
    change (rd16 (bsub 26 2 (bsub 0 dat_hdr_size (db_hdr p)))) with (dh_key_size (dh_of (db_hdr p))).
    rewrite Hdh. reflexivity.
Qed.

(** ** The database as a list of records *)
Lemma visit_disk e p cb recs T w : dbp_ok p -> disk e p recs T w ->
  exists d, w_dat w = Some d /\ run (visit cb) w =
    (w, Ok (finish (spec_visit cb (blen d) 92 [VProgress 0 (blen d)] (map rec_spec recs)) (Ok tt))) /\
    blen d = 92 + blen (images (map rec_spec recs)).
Proof.
  intros Hp [Hd _ Hr _ He _ _ Hl]. exists (db_hdr p ++ enc_recs recs). split; [exact Hd|].
  assert (Hs : blen (db_hdr p ++ enc_recs recs) < 18446744073709551616)
    by (pose proof (data_short e p recs Hp Hr He Hl); lia).
  destruct (dat_checks_db p (enc_recs recs) Hp) as (A & B & C).
  rewrite enc_recs_images in *. split.
  - apply (visit_file cb w (db_hdr p) (map rec_spec recs)); auto.
    rewrite B. eapply rec_spec_ok; eauto. apply p_bs; auto.
  - rewrite blen_app, p_hdr. reflexivity.
Qed.

(** The values in a database and the values a history leaves flushed. *)
Lemma written_durable e a l w s : good_args a -> iter_ok e -> Forall (valid_op (ca_key_size a)) l ->
  lived e a l w s ->
  NoDup (map fst (written sempty [] [] l)) /\
  forall k v, In (k, v) (written sempty [] [] l) <-> spec_durable sempty sempty l k = Some v.
Proof.
  intros Ha Hit Hv Hl.
  destruct (lived_written e a l w s Ha Hit Hv Hl) as (recs & T & i & b & Hi & _ & <-).
  destruct (lived_more e a l w s Ha Hit Hv Hl) as (recs' & T' & _ & Hi' & _ & _ & Hd & _).
  assert (E : kvs recs' = kvs recs).
  { pose proof (dk_dat _ _ _ _ _ (si_disk _ _ _ _ _ _ Hi)) as D1.
    pose proof (dk_dat _ _ _ _ _ (si_disk _ _ _ _ _ _ Hi')) as D2.
    rewrite D1 in D2. assert (D3 : forall x y : bytes, Some x = Some y -> x = y) by congruence.
    apply D3 in D2. apply app_inv_head in D2.
    rewrite !enc_recs_images in D2. rewrite <- !values_kvs. f_equal.
    destruct (good_args_ok a Ha) as (Hp & _).
    apply (images_inj (db_key_size (dbp_of a))).
    - eapply rec_spec_ok; [apply p_bs; eauto|]. apply (dk_recs _ _ _ _ _ (si_disk _ _ _ _ _ _ Hi')).
    - eapply rec_spec_ok; [apply p_bs; eauto|]. apply (dk_recs _ _ _ _ _ (si_disk _ _ _ _ _ _ Hi)).
    - auto. }
  pose proof (dk_nd _ _ _ _ _ (si_disk _ _ _ _ _ _ Hi)) as Hnd. split; auto.
  intros k v. rewrite Hd, E. symmetry. apply kfind_In. auto.
Qed.
