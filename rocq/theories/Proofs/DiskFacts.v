(** The files of a database as the specification sees them. *)
From Verif Require Import Model.Bytes Model.Err Model.Field Model.Format Model.IO
  Model.BulkIO Model.Bucket Model.Pool Model.Recover Model.Create Model.Store Spec SpecFormat
  SpecDisk Model.History
  Proofs.BytesFacts Proofs.FieldFacts Proofs.IOFacts Proofs.PoolFacts Proofs.BucketFacts
  Proofs.BulkFacts Proofs.HashFacts Proofs.Table Proofs.Lookup Proofs.SplitFacts
  Proofs.CommitFacts Proofs.CommitInv Proofs.CommitRun Proofs.HeaderFacts Proofs.StoreInv
  Proofs.OpenFacts Proofs.HistoryFacts Proofs.LifeFacts Proofs.FormatFacts.

Definition triple_of (x : entry) : N * N * N := (en_off x, en_size x, en_hash x).

Lemma entry_of_triple x : FormatFacts.entry_of (triple_of x) = x.
Proof. destruct x; reflexivity. Qed.
Lemma map_entry_of_triple l : map FormatFacts.entry_of (map triple_of l) = l.
Proof. rewrite map_map. erewrite map_ext; [apply map_id|]. apply entry_of_triple. Qed.

Lemma len_triples l : N.of_nat (length (map triple_of l)) = blen l.
Proof. rewrite map_length. reflexivity. Qed.

Lemma by_hash_triples es : ssorted es -> by_hash (map triple_of es).
Proof. intros H. apply by_hash_sorted. rewrite map_entry_of_triple. auto. Qed.

Lemma image_triples es sp : bucket_image (map triple_of es) sp = enc_bucket es sp.
Proof. rewrite bucket_image_enc, map_entry_of_triple. auto. Qed.

Lemma filter_map_comm {A B} (f : A -> B) (g : B -> bool) l :
  filter g (map f l) = map f (filter (fun x => g (f x)) l).
Proof. induction l as [|x l IH]; simpl; auto. destruct (g (f x)); simpl; rewrite IH; auto. Qed.

Lemma home_index B h : 0 < B -> B < 2 ^ 63 -> home B h = bucket_index h B (ceil_pow2 B).
Proof.
  change (2 ^ 63) with 9223372036854775808.
  intros H0 H1. unfold home, bucket_index. rewrite <- ceil_pow2_log2_up by lia.
  set (i := h mod ceil_pow2 B).
  destruct (N.ltb_spec i B), (N.leb_spec B i); auto; lia.
Qed.

Lemma holds_at_place bs ks hdr recs o r : blen hdr = dat_hdr_size ->
  Forall (rec_ok ks bs) recs -> In (o, r) (placed recs) -> holds_at (hdr ++ enc_recs recs) o (enc_rec r).
Proof. intros Hh _ Hin. apply (holds_placed hdr recs Hh _ _ Hin). Qed.

Lemma spill_chain_of bs dat P sp ces : 104 <= bs -> holds dat P -> (forall o r, In (o, r) P -> 92 <= o) ->
  chain bs P sp ces -> spill_chain bs dat sp (map triple_of ces).
Proof.
  intros Hb Hh Hge. induction 1 as [|sp es sp' ces H8 Hlt Hin Hlen [Hs Ho] Hdec Hch IH]; [constructor|].
  rewrite map_app. econstructor; eauto.
  - apply Hge in Hin. lia.
  - destruct (Hh _ _ Hin) as [A B]. rewrite image_triples, len_triples, <- wr48_be, <- wr16_be.
    cbn [enc_rec] in A, B. unfold bucket_size in A, B.
    replace (8 + 18 * blen es) with (2 + 6 + blen es * 18) by lia. split; auto.
  - rewrite len_triples, <- capacity_eq; auto.
  - apply by_hash_triples; auto.
Qed.

Definition stored_of (recs : list drec) : list stored := datas (placed recs).

Lemma stored_kvs recs : map (fun x => (sto_key x, sto_val x)) (stored_of recs) = kvs recs.
Proof.
  unfold stored_of, placed. generalize dat_hdr_size. induction recs as [|[k v|es sp] recs IH]; intros o; cbn [place datas map kvs sto_key sto_val fst snd]; auto.
  f_equal. apply IH.
Qed.

Lemma disk_structure e p recs T s w : dbp_ok p -> sinv e p recs T s w ->
  exists dat key, w_dat w = Some dat /\ w_key w = Some key /\
    blen key = (st_buckets s + 1) * db_block_size p /\
    bsub 0 (db_block_size p) key = db_kb e p /\
    Forall (record_at dat) (stored_of recs) /\ NoDup (map sto_key (stored_of recs)) /\
    index_ok (db_block_size p) (st_buckets s) dat key
      (map (index_entry (hash (e_hasher e) (db_salt p))) (stored_of recs)).
Proof.
  intros Hp Hi. pose proof (si_disk _ _ _ _ _ _ Hi) as Hd.
  pose proof (dk_dat _ _ _ _ _ Hd) as Hdat. pose proof (dk_key _ _ _ _ _ Hd) as Hkey.
  destruct (disk_holds e p _ _ _ Hd) as [Hho Hfu].
  destruct (disk_pow e p Hp _ _ _ Hd) as (HB1 & HB2 & Hpo & Hti).
  rewrite (si_buckets _ _ _ _ _ _ Hi).
  assert (Hbs : 104 <= db_block_size p).
  { pose proof (p_cap p Hp) as X. unfold bucket_capacity, key_hdr_size in X.
    destruct (N.ltb_spec (db_block_size p) 104); [simpl in X; lia|auto]. }
  pose proof (T_fits (db_kh e p 0) (p_cap p Hp) T (disk_bent e p _ _ _ Hd 0)) as Hfit.
  cbn [db_kh kh_block_size] in Hfit.
  pose proof (p_kb e p Hp) as Hkb.
  exists (db_hdr p ++ enc_recs recs), (kfile (db_block_size p) (db_kb e p) T). splits; auto.
  - apply (kfile_len e p Hp _ _ _ Hd).
  - unfold kfile. rewrite bsub_0. apply btake_app_eq. auto.
  - apply Forall_forall. intros [[o k] v] Hin. apply datas_In in Hin. split.
    + cbn [sto_off fst]. apply placed_ge in Hin. exact Hin.
    + cbn [sto_off sto_key sto_val fst snd]. rewrite <- wr48_be. apply (Hho _ _ Hin).
  - replace (map sto_key (stored_of recs)) with (map fst (kvs recs)); [apply Hd|].
    rewrite <- stored_kvs, map_map. reflexivity.
  - intros n Hn. destruct (ti_b _ _ _ _ _ Hti n Hn) as [Ok Hcap Hne (ces & Hch & Hperm)].
    destruct (nthN T n ([], 0)) as [es sp] eqn:Et. cbn [fst snd] in *.
    exists (map triple_of es), sp, (map triple_of ces). splits.
    + destruct (kfile_block _ _ _ n Hkb Hfit Hn) as [A B]. rewrite Et in B.
      unfold block_is. rewrite image_triples, !len_triples, <- (capacity_eq _ Hbs).
      unfold kblock, enc_block, bucket_size in B. cbn [fst snd] in B.
      assert (Hfb : bucket_size (blen es) <= db_block_size p).
      { rewrite Forall_forall in Hfit.
        assert (X : In (nthN T n ([], 0)) T) by (apply nth_In; clear - Hn; unfold blen in Hn; lia).
        rewrite Et in X. apply (Hfit _ X). }
      splits.
      * replace (8 + 18 * blen es) with (2 + 6 + blen es * 18) by lia. split.
        { rewrite blen_app, blen_enc_bucket, blen_zeros. unfold bucket_size in *. clear - A Hfb. lia. }
        { rewrite blen_app, blen_enc_bucket, blen_zeros.
          replace (bucket_size (blen es) + (db_block_size p - (2 + 6 + blen es * 18))) with (db_block_size p)
            by (unfold bucket_size in *; clear - Hfb; lia). exact B. }
      * exact Hcap.
      * apply by_hash_triples, Ok.
      * rewrite Forall_map. eapply Forall_impl; [|apply Ok]. intros x Hx. exact Hx.
      * apply (chain_lt _ _ _ _ Hch).
    + eapply spill_chain_of; eauto. intros o r Hin. apply placed_ge in Hin. exact Hin.
    + rewrite <- map_app.
      eapply perm_trans; [apply Permutation_map; exact Hperm|].
      match goal with |- Permutation ?a ?b => replace b with a; [apply Permutation_refl|] end.
      unfold dents. rewrite !filter_map_comm, map_map.
      assert (X : forall l : list stored, map (fun x => triple_of (Table.entry_of (e_hasher e) (db_salt p) x))
          (filter (fun x => mine (blen T) (ceil_pow2 (blen T)) n (Table.entry_of (e_hasher e) (db_salt p) x)) l)
        = map (index_entry (hash (e_hasher e) (db_salt p)))
          (filter (fun x => home (blen T) (hash_of (index_entry (hash (e_hasher e) (db_salt p)) x)) =? n) l)).
      { induction l as [|[[o k] v] l IH]; [reflexivity|]. cbn [filter].
        unfold mine at 1. unfold index_entry at 2. cbn [Table.entry_of en_hash hash_of snd sto_key fst].
        rewrite home_index by (change (2 ^ 63) with 9223372036854775808; clear - HB1 HB2; lia).
        destruct (bucket_index _ _ _ =? n); [|exact IH]. cbn [map]. rewrite IH. reflexivity. }
      apply X.
Qed.

(** ** Databases at the end of a life *)
Section Lived.
Variables (e : env) (a : create_args) (l : list op) (w : world) (s : store).
Hypothesis Hit : iter_ok e.
Hypothesis Ha : good_args a.
Hypothesis Hv : Forall (valid_op (ca_key_size a)) l.
Hypothesis Hl : lived e a l w s.

Lemma lived_disk :
  exists dat key sto, w_dat w = Some dat /\ w_key w = Some key /\
    blen key = (st_buckets s + 1) * ca_block_size a /\
    Forall (record_at dat) sto /\ NoDup (map sto_key sto) /\
    (forall k v, spec_durable sempty sempty l k = Some v <-> exists o, In (o, k, v) sto) /\
    index_ok (ca_block_size a) (st_buckets s) dat key
      (map (index_entry (hash (e_hasher e) (ca_salt a))) sto).
Proof.
  destruct (good_args_ok a Ha) as (Hp & _).
  destruct (lived_more e a l w s Ha Hit Hv Hl) as (recs & T & _ & Hi & _ & _ & Hd & _).
  destruct (disk_structure e _ recs T s w Hp Hi) as (dat & key & A & B & C & _ & D & E & F).
  exists dat, key, (stored_of recs). splits; auto.
  intros k v. rewrite Hd. rewrite kfind_In by apply (si_disk _ _ _ _ _ _ Hi).
  rewrite <- stored_kvs, in_map_iff. split.
  - intros ([[o k'] v'] & X & Y). injection X; intros; subst. eauto.
  - intros (o & Ho). exists (o, k, v). auto.
Qed.

Lemma lived_chains :
  (exists dat key, w_dat w = Some dat /\ w_key w = Some key /\
   forall n, n < st_buckets s -> exists es spill rest,
     block_is (ca_block_size a) key n es spill /\ spill_chain (ca_block_size a) dat spill rest) /\
  (forall k, blen k = ca_key_size a ->
     run (store_fetch e s k) w =
       (w, match spec_final sempty l k with Some v => Ok v | None => Er key_not_found end)).
Proof.
  destruct (good_args_ok a Ha) as (Hp & _).
  destruct (lived_more e a l w s Ha Hit Hv Hl) as (recs & T & _ & Hi & _ & Hm & _).
  split.
  - destruct (disk_structure e _ recs T s w Hp Hi) as (dat & key & A & B & _ & _ & _ & _ & F).
    exists dat, key. splits; auto. intros n Hn. destruct (F n Hn) as (es & sp & rest & X & Y & _).
    exists es, sp, rest. auto.
  - intros k Hk. rewrite Hm. rewrite (fetch_ok e _ Hp recs T s w k Hi Hk).
    destruct (abs recs s k); reflexivity.
Qed.

Lemma lived_key_file :
  exists key, w_key w = Some key /\ blen key = (st_buckets s + 1) * ca_block_size a /\
    (exists lf, lf_field (ca_load_factor a) = Some lf /\
       bsub 0 (ca_block_size a) key =
         enc_key_header (create_key_header e a lf) ++ zeros (ca_block_size a - 104)) /\
    forall n, n < st_buckets s -> exists es spill, block_is (ca_block_size a) key n es spill.
Proof.
  destruct (good_args_ok a Ha) as (Hp & _ & Hf & _).
  destruct (lived_more e a l w s Ha Hit Hv Hl) as (recs & T & _ & Hi & _ & Hm & _).
  destruct (disk_structure e _ recs T s w Hp Hi) as (dat & key & A & B & C & D & _ & _ & F).
  exists key. splits; auto.
  - eexists. split; [exact Hf|]. cbn [dbp_of db_block_size] in D. rewrite D. reflexivity.
  - intros n Hn. destruct (F n Hn) as (es & sp & rest & X & _). eauto.
Qed.
End Lived.

(** ** Growth *)
Lemma do_ops_app e l1 : forall l2 s w,
  do_ops e s (l1 ++ l2) w =
    match do_ops e s l1 w with
    | (w1, Some s1, os) => let '(w2, s2, os2) := do_ops e s1 l2 w1 in (w2, s2, os ++ os2)
    | r => r
    end.
Proof.
  induction l1 as [|c l1 IH]; intros l2 s w; cbn [app do_ops].
  - destruct (do_ops e s l2 w) as [[w2 s2] os2]. reflexivity.
  - destruct (do_op e s c w) as [[w1 [s1|]] o]; [|reflexivity].
    rewrite IH. destruct o; auto; destruct (do_ops e s1 l1 w1) as [[w2 [s2|]] os]; auto;
    destruct (do_ops e s2 l2 w2) as [[w3 s3] os3]; reflexivity.
Qed.

Lemma life_app e a l1 l2 w1 s1 os1 :
  life e a l1 = (w1, Some s1, os1) ->
  life e a (l1 ++ l2) = let '(w2, s2, os2) := do_ops e s1 l2 w1 in (w2, s2, os1 ++ os2).
Proof.
  unfold life. destruct (run (create e a) no_files) as [w0 [u|er]]; [|discriminate].
  destruct (run (store_open e) w0) as [w [s|er]]; [|discriminate].
  intros H. rewrite do_ops_app, H. reflexivity.
Qed.

Lemma life_app_inv e a l1 l2 w s os : life e a (l1 ++ l2) = (w, Some s, os) ->
  exists w1 s1 os1 os2, life e a l1 = (w1, Some s1, os1) /\ do_ops e s1 l2 w1 = (w, Some s, os2) /\
    os = os1 ++ os2.
Proof.
  intros H. destruct (life e a l1) as [[w1 [s1|]] os1] eqn:E.
  - rewrite (life_app _ _ _ _ _ _ _ E) in H. destruct (do_ops e s1 l2 w1) as [[w2 s2] os2] eqn:E2.
    injection H; intros; subst. do 4 eexists. splits; eauto.
  - exfalso. revert E H. unfold life. destruct (run (create e a) no_files) as [w0 [u|er]]; [|discriminate].
    destruct (run (store_open e) w0) as [w' [s'|er]]; [|discriminate].
    intros E H. rewrite do_ops_app, E in H. discriminate.
Qed.

(** The table size that goes with the load factor. *)
Lemma session_growth e p : dbp_ok p -> iter_ok e -> forall l recs T s w i b m w' s' os,
  sinv e p recs T s w -> szinv recs s i b -> Forall (valid_op (db_key_size p)) l ->
  Forall (fun c => c <> OpReopen) l -> (forall k, m k = abs recs s k) ->
  do_ops e s l w = (w', Some s', os) ->
  exists x T', sinv e p (recs ++ x) T' s' w' /\
    st_frac s' + db_thresh p * blen T' + 65536 * blen (kvs recs) =
    st_frac s + db_thresh p * blen T + 65536 * blen (kvs (recs ++ x)) /\
    blen (kvs (recs ++ x)) + blen (pl_map (st_p1 s')) =
      blen (kvs recs) + blen (pl_map (st_p1 s)) + inserted os /\
    (forall l0, l = l0 ++ [OpFlush] -> pl_map (st_p1 s') = []).
Proof.
  intros Hp Hit. induction l as [|c l IH]; intros recs T s w i b m w' s' os Hi Hz Hv Hn Hm Hr.
  - injection Hr; intros; subst. exists [], T. rewrite app_nil_r. splits; auto.
    + cbn [inserted]. lia.
    + intros l0 X. destruct l0; discriminate.
  - inversion Hv as [|? ? Hc Hl]; subst. inversion Hn as [|? ? Hc1 Hl1]; subst. cbn [do_ops] in Hr.
    destruct (do_op_ok e p Hp Hit _ _ _ _ _ _ _ m Hi Hz Hc Hm) as [(x & T1 & s1 & w1 & Hr1 & Hi1 & Hz1 & Hm1 & [Sr Sc Sg])|[Hbig (w1 & o1 & Hr1 & _)]].
    2:{ rewrite Hr1 in Hr. destruct o1; discriminate. }
    rewrite Hr1 in Hr.
    assert (Ho : snd (spec_step m c) <> OAborted) by apply spec_step_not_aborted.
    set (o := snd (spec_step m c)) in *.
    assert (Hr2 : let '(w2, s2, os2) := do_ops e s1 l w1 in
              w2 = w' /\ s2 = Some s' /\ os = o :: os2).
    { destruct (do_ops e s1 l w1) as [[w2 s2] os2]. destruct o; try congruence; injection Hr; auto. }
    destruct (do_ops e s1 l w1) as [[w2 s2] os2] eqn:Ed. destruct Hr2 as (-> & -> & ->).
    destruct (IH _ _ _ _ _ _ _ _ _ _ Hi1 Hz1 Hl Hl1 Hm1 Ed) as (y & T2 & Hi2 & Hg & Hcnt & Hlast).
    exists (x ++ y), T2. rewrite app_assoc. splits; auto.
    + destruct c; try congruence; clear - Sg Hg; lia.
    + change (o :: os2) with ([o] ++ os2). rewrite inserted_app. clear - Sc Hcnt. lia.
    + intros l0 X. destruct l0 as [|c0 l0].
      * injection X; intros; subst. cbn [do_ops] in Ed. injection Ed; intros; subst. exact Sr.
      * injection X; intros; subst. eapply Hlast; reflexivity.
Qed.

(** [l1] ends with opening the database. *)
Definition just_opened (l1 : list op) : Prop := l1 = [] \/ exists l, l1 = l ++ [OpReopen].

Lemma opened_fresh e a l w s : iter_ok e -> good_args a -> Forall (valid_op (ca_key_size a)) l ->
  just_opened l -> lived e a l w s ->
  st_frac s = db_thresh (dbp_of a) / 2 /\ pl_map (st_p1 s) = [].
Proof.
  intros Hit Ha Hv Hj (os & Hl). destruct (good_args_ok a Ha) as (Hp & _).
  destruct Hj as [->|(l' & ->)].
  - destruct (lived_start e a Ha Hit) as (s0 & w0 & Hl0 & _ & He & Hf).
    rewrite Hl0 in Hl. cbn [do_ops] in Hl. injection Hl; intros; subst. auto.
  - apply life_app_inv in Hl as (w1 & s1 & os1 & os2 & Hl1 & Hd & _).
    apply Forall_app in Hv as [Hv1 _].
    destruct (lived_more e a l' w1 s1 Ha Hit Hv1) as (recs & T & _ & Hi & Hz & Hm & _).
    { exists os1. auto. }
    cbn [do_ops] in Hd.
    destruct (reopen_ok e _ Hp Hit _ _ _ _ _ _ Hi Hz) as [(x & T' & s' & w' & Hr & _ & _ & _ & [Sr _ Sg])|[_ (w' & Hr & _)]];
      rewrite Hr in Hd; [|discriminate].
    injection Hd; intros; subst. auto.
Qed.

Lemma growth_floor t B B' f n : 0 < t -> f < t ->
  f + t * B' = t / 2 + 65536 * n + t * B -> B' = B + (t / 2 + 65536 * n) / t.
Proof.
  intros Ht Hf HE. assert (X : B <= B' \/ B' < B) by lia. destruct X as [X|X].
  - replace (t / 2 + 65536 * n) with (f + (B' - B) * t) by nia.
    rewrite N.div_add by lia. rewrite N.div_small by auto. lia.
  - exfalso. assert (t * (B' + 1) <= t * B) by (apply N.mul_le_mono_l; lia). nia.
Qed.

(** [thresh] of basic_store in terms of create()'s arguments. *)
Definition thresh_of (a : create_args) : N :=
  match ca_load_factor a with
  | FVal n d => N.max 65536 (N.min (Z.to_N (65536 * n / Z.pos d)) 65535 * capacity (ca_block_size a))
  | FNaN => 65536
  end.

Lemma thresh_of_db a : good_args a -> thresh_of a = db_thresh (dbp_of a).
Proof.
  intros Ha. pose proof Ha as (_ & _ & _ & _ & Hb & Hf).
  unfold thresh_of, db_thresh, dbp_of. cbn [db_load_factor db_block_size].
  destruct (ca_load_factor a) as [|n d]; [contradiction|]. cbn [lf_field].
  rewrite capacity_eq by lia. reflexivity.
Qed.

Lemma growth_exact e a l1 l2 w1 s1 w2 s2 os1 os2 key1 :
  iter_ok e -> good_args a -> Forall (valid_op (ca_key_size a)) (l1 ++ l2 ++ [OpFlush]) ->
  just_opened l1 -> Forall (fun c => c <> OpReopen) l2 ->
  life e a l1 = (w1, Some s1, os1) ->
  life e a (l1 ++ l2 ++ [OpFlush]) = (w2, Some s2, os1 ++ os2) ->
  w_key w1 = Some key1 ->
  exists key2, w_key w2 = Some key2 /\
    blen key2 = blen key1 +
      ca_block_size a * ((thresh_of a / 2 + 65536 * inserted os2) / thresh_of a).
Proof.
  intros Hit Ha Hv Hj Hn H1 H2 Hk1. destruct (good_args_ok a Ha) as (Hp & _).
  pose proof Hv as Hv'. apply Forall_app in Hv' as [Hv1 Hv2].
  assert (L1 : lived e a l1 w1 s1) by (exists os1; auto).
  assert (L2 : lived e a (l1 ++ l2 ++ [OpFlush]) w2 s2) by (eexists; eauto).
  destruct (opened_fresh e a l1 w1 s1 Hit Ha Hv1 Hj L1) as [Hf He].
  destruct (lived_more e a l1 w1 s1 Ha Hit Hv1 L1) as (recs & T & _ & Hi & Hz & Hm & _).
  rewrite (life_app _ _ _ _ _ _ _ H1) in H2.
  destruct (do_ops e s1 (l2 ++ [OpFlush]) w1) as [[w3 s3] os3] eqn:Ed.
  injection H2; intros HE; intros; subst. apply app_inv_head in HE. subst os3.
  assert (Hn' : Forall (fun c => c <> OpReopen) (l2 ++ [OpFlush])).
  { apply Forall_app. split; auto. constructor; [discriminate|constructor]. }
  destruct (session_growth e _ Hp Hit _ _ _ _ _ _ _ _ _ _ _ Hi Hz Hv2 Hn' Hm Ed)
    as (x & T' & Hi' & Hg & Hc & Hlast).
  specialize (Hlast l2 eq_refl).
  rewrite He, Hlast in Hc. rewrite Hf in Hg.
  destruct (disk_structure e _ _ _ _ _ Hp Hi) as (d1 & k1 & _ & A1 & B1 & _).
  destruct (disk_structure e _ _ _ _ _ Hp Hi') as (d2 & k2 & _ & A2 & B2 & _).
  exists k2. split; auto. rewrite A1 in Hk1. injection Hk1; intros; subst k1. rewrite B1, B2.
  rewrite (si_buckets _ _ _ _ _ _ Hi), (si_buckets _ _ _ _ _ _ Hi').
  rewrite (thresh_of_db a Ha).
  pose proof (p_thresh (dbp_of a)) as Ht.
  pose proof (si_frac _ _ _ _ _ _ Hi') as Hlt.
  change (blen (@nil pelem)) with 0 in Hc.
  rewrite (growth_floor (db_thresh (dbp_of a)) (blen T) (blen T') (st_frac s2) (inserted os2)).
  - cbn [dbp_of db_block_size]. lia.
  - lia.
  - exact Hlt.
  - clear - Hg Hc. nia.
Qed.

Lemma load_bounded e a l w s os key :
  iter_ok e -> good_args a -> Forall (valid_op (ca_key_size a)) (l ++ [OpFlush]) ->
  Forall (fun c => c <> OpReopen) l ->
  life e a (l ++ [OpFlush]) = (w, Some s, os) -> w_key w = Some key ->
  65536 * inserted os < thresh_of a * (blen key / ca_block_size a - 1).
Proof.
  intros Hit Ha Hv Hn H2 Hk. destruct (good_args_ok a Ha) as (Hp & _).
  destruct (lived_start e a Ha Hit) as (s0 & w0 & Hl0 & Hs0 & He & Hf).
  assert (H1 : life e a [] = (w0, Some s0, [])) by (rewrite Hl0; reflexivity).
  rewrite Hl0 in H2.
  assert (Hn' : Forall (fun c => c <> OpReopen) (l ++ [OpFlush])).
  { apply Forall_app. split; auto. constructor; [discriminate|constructor]. }
  assert (Hz : szinv [] s0 0 0) by (split; rewrite He; reflexivity).
  assert (Hm : forall k, sempty k = abs [] s0 k) by (intros k; rewrite abs_flushed; auto).
  destruct (session_growth e _ Hp Hit _ _ _ _ _ _ _ _ _ _ _ Hs0 Hz Hv Hn' Hm H2)
    as (x & T' & Hi' & Hg & Hc & Hlast).
  specialize (Hlast l eq_refl). rewrite He, Hlast in Hc. rewrite Hf in Hg.
  cbn [app] in *. change (blen (kvs [])) with 0 in *. change (blen (@nil pelem)) with 0 in *.
  change (blen [(@nil entry, 0)]) with 1 in Hg.
  destruct (disk_structure e _ _ _ _ _ Hp Hi') as (d2 & k2 & _ & A2 & B2 & _).
  rewrite A2 in Hk. injection Hk; intros; subst k2. rewrite B2.
  rewrite (si_buckets _ _ _ _ _ _ Hi'). rewrite (thresh_of_db a Ha).
  cbn [dbp_of db_block_size]. pose proof Ha as (_ & _ & _ & _ & Hb & _).
  rewrite N.div_mul by lia. replace (blen T' + 1 - 1) with (blen T') by lia.
  pose proof (p_thresh (dbp_of a)) as Ht. pose proof (si_frac _ _ _ _ _ _ Hi') as Hlt.
  set (t := db_thresh (dbp_of a)) in *.
  assert (t / 2 * 2 + 1 >= t) by (pose proof (N.div_mod t 2); pose proof (N.mod_lt t 2); lia).
  clear - Hg Hc Hlt H Ht. nia.
Qed.
