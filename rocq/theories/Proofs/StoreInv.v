(** The invariant of an open store and of its files. *)
From Verif Require Import Model.Bytes Model.Err Model.Field Model.Format Model.IO
  Model.BulkIO Model.Bucket Model.Pool Model.Recover Model.Store
  Proofs.BytesFacts Proofs.FieldFacts Proofs.IOFacts Proofs.PoolFacts Proofs.BucketFacts
  Proofs.BulkFacts Proofs.HashFacts Proofs.Table Proofs.Lookup Proofs.SplitFacts
  Proofs.CommitFacts Proofs.CommitInv Proofs.CommitRun Proofs.HeaderFacts.

(** ** Databases *)
Record dbp := DbP {
  db_uid : N; db_appnum : N; db_key_size : N; db_salt : N; db_block_size : N; db_load_factor : N;
  (* may the data file hold spill records of an earlier key file? *)
  db_mixed : bool;
  (* the number of buckets the key file started with *)
  db_base : N }.

Definition dbp_ok (p : dbp) : Prop :=
  db_uid p < 18446744073709551616 /\ db_appnum p < 18446744073709551616 /\
  1 <= db_key_size p /\ db_key_size p < 65536 /\ db_salt p < 18446744073709551616 /\
  db_block_size p < 65536 /\ 1 <= bucket_capacity (db_block_size p) /\
  1 <= db_load_factor p /\ db_load_factor p < 65536 /\
  1 <= db_base p /\ db_base p <= 4611686018427387904.

Definition db_dh (p : dbp) : dat_header :=
  DatHeader magic_dat currentVersion (db_uid p) (db_appnum p) (db_key_size p).
Definition db_kh (e : env) (p : dbp) (B : N) : key_header :=
  KeyHeader magic_key currentVersion (db_uid p) (db_appnum p) (db_key_size p) (db_salt p)
    (pepper (e_hasher e) (db_salt p)) (db_block_size p) (db_load_factor p)
    (bucket_capacity (db_block_size p)) B (ceil_pow2 B).
Definition db_hdr (p : dbp) : bytes := enc_dat_header (db_dh p).
Definition db_kb (e : env) (p : dbp) : bytes := enc_key_header_block (db_kh e p 0).
Definition db_thresh (p : dbp) : N :=
  N.max 65536 (db_load_factor p * bucket_capacity (db_block_size p)).

(** Keys and values of the data records. *)
Fixpoint kvs (recs : list drec) : list (bytes * bytes) :=
  match recs with
  | [] => []
  | DRec k v :: l => (k, v) :: kvs l
  | SRec _ _ :: l => kvs l
  end.

Fixpoint kfind (l : list (bytes * bytes)) (k : bytes) : option bytes :=
  match l with
  | [] => None
  | (k', v) :: l' => if beq k' k then Some v else kfind l' k
  end.

Lemma kvs_app a b : kvs (a ++ b) = kvs a ++ kvs b.
Proof. induction a as [|[k v|es sp] a IH]; simpl; auto. rewrite IH. auto. Qed.

Lemma kvs_datas o recs : map (fun x => (snd (fst x), snd x)) (datas (place o recs)) = kvs recs.
Proof. revert o; induction recs as [|[k v|es sp] l IH]; intros o; simpl; auto. rewrite IH. auto. Qed.

Lemma kfind_app a b k : kfind (a ++ b) k = match kfind a k with Some v => Some v | None => kfind b k end.
Proof. induction a as [|[k' v] a IH]; simpl; auto. destruct (beq k' k); auto. Qed.

Lemma kfind_none l k : kfind l k = None <-> ~ In k (map fst l).
Proof.
  induction l as [|[k' v] l IH]; simpl; [tauto|].
  destruct (beq k' k) eqn:E.
  - apply beq_eq in E. split; [discriminate|tauto].
  - apply beq_neq in E. rewrite IH. tauto.
Qed.

Lemma kfind_In l k v : NoDup (map fst l) -> (kfind l k = Some v <-> In (k, v) l).
Proof.
  induction l as [|[k' v'] l IH]; simpl; intros Hnd; [split; [discriminate|tauto]|].
  inversion Hnd; subst. destruct (beq k' k) eqn:E.
  - apply beq_eq in E. subst k'. split.
    + intros X; injection X; intros; subst; auto.
    + intros [X|X]; [congruence|]. exfalso. apply H1. apply (in_map fst) in X. exact X.
  - apply beq_neq in E. rewrite IH by auto. split; auto. intros [X|X]; auto. congruence.
Qed.

Lemma kvs_In recs k v : In (k, v) (kvs recs) <-> exists o, In (o, DRec k v) (placed recs).
Proof.
  rewrite <- (kvs_datas dat_hdr_size recs). rewrite in_map_iff. split.
  - intros ([[o k'] v'] & E & Hin). simpl in E. injection E; intros; subst.
    apply datas_In in Hin. exists o. exact Hin.
  - intros (o & Hin). exists (o, k, v). split; auto. apply datas_In. exact Hin.
Qed.

(** Entries of the data records. *)
Definition dents (e : env) (p : dbp) (recs : list drec) : list entry :=
  map (entry_of (e_hasher e) (db_salt p)) (datas (placed recs)).

Lemma blen_dents e p recs : blen (dents e p recs) = blen (kvs recs).
Proof. unfold dents. rewrite <- (kvs_datas dat_hdr_size recs), !blen_map. auto. Qed.

(** Records of a data file: well-formed, except that spill records of an
    earlier key file may have another size. *)
Definition drec_ok (p : dbp) (r : drec) : Prop :=
  rec_ok (db_key_size p) (db_block_size p) r \/
  (db_mixed p = true /\
   match r with
   | DRec _ _ => False
   | SRec es sp => ents_ok es /\ blen es <= 3640 /\ sp < 281474976710656
   end).

(** No spill records of an earlier key file. *)
Definition unmixed (p : dbp) : Prop := db_mixed p = false.

(** The data and key files hold a well-formed database. *)
Record disk (e : env) (p : dbp) (recs : list drec) (T : list bent) (w : world) : Prop := Disk {
  dk_dat : wget w FDat = Some (db_hdr p ++ enc_recs recs);
  dk_key : wget w FKey = Some (kfile (db_block_size p) (db_kb e p) T);
  dk_recs : Forall (drec_ok p) recs;
  dk_nd : NoDup (map fst (kvs recs));
  dk_ents : Forall entry_ok (dents e p recs);
  dk_t : exists M, tinv (db_block_size p) (placed recs) T M (dents e p recs);
  dk_B : blen T <= db_base p + blen (kvs recs);
  dk_low : low 0 recs }.

Lemma disk_wlog e p recs T w l : disk e p recs T w -> disk e p recs T (wset w FLog l).
Proof.
  intros [A B C D E F G L]. constructor; auto; rewrite wget_wset_other by discriminate; auto.
Qed.

Lemma count_place X l : forall o,
  Forall (fun x => fst (fst x) < X) (datas (place o l)) ->
  datas (place o l) = [] \/ o + blen (datas (place o l)) <= X.
Proof.
  induction l as [|r l IH]; intros o Hf; simpl; auto.
  pose proof (enc_rec_len r) as Hr. simpl in Hf. destruct r as [k v|es sp].
  - right. inversion Hf; subst. simpl in *. rewrite blen_cons.
    destruct (IH _ H2) as [E|E]; [rewrite E, blen_nil; lia|lia].
  - destruct (IH _ Hf) as [E|E]; [auto|right; lia].
Qed.

Lemma count_ents e p recs : Forall entry_ok (dents e p recs) -> blen (kvs recs) <= 281474976710656.
Proof.
  intros Hf. rewrite <- (blen_dents e p). unfold dents in *. rewrite blen_map.
  destruct (count_place 281474976710656 recs dat_hdr_size) as [E|E].
  - rewrite Forall_forall in *. intros [[o k] v] Hin. simpl.
    specialize (Hf (Entry o (blen v) (hash (e_hasher e) (db_salt p) k))).
    destruct Hf as (X & _); auto. apply in_map_iff. exists (o, k, v). auto.
  - unfold placed. rewrite E. rewrite blen_nil. lia.
  - unfold placed. lia.
Qed.

(** A database that was not made by rekey, or of not too many buckets. *)
Definition young (p : dbp) : Prop := db_base p <= 70368744177664.

(** A data file is never much longer than the largest offset. *)
Lemma data_short e p recs : dbp_ok p -> Forall (drec_ok p) recs -> Forall entry_ok (dents e p recs) -> low 0 recs ->
  blen (db_hdr p ++ enc_recs recs) < 281483566645248.
Proof.
  intros Hp Hr He Hl. rewrite blen_app, (blen_dat_header (db_dh p) : blen (db_hdr p) = dat_hdr_size). unfold dat_hdr_size.
  destruct recs as [|r recs _] using rev_ind; [change (blen (enc_recs [])) with 0; lia|].
  rewrite enc_recs_app, blen_app. unfold enc_recs at 2. cbn [flat_map]. rewrite app_nil_r.
  apply Forall_app in Hr as [_ Hr]. apply Forall_inv in Hr.
  assert (Hin : In (dat_hdr_size + blen (enc_recs recs), r) (placed (recs ++ [r]))).
  { rewrite placed_app. apply in_app_iff. right. left. reflexivity. }
  unfold dat_hdr_size in Hin. destruct r as [k v|es sp].
  - assert (Ho : 92 + blen (enc_recs recs) < 281474976710656).
    { rewrite Forall_forall in He.
      apply (He (entry_of (e_hasher e) (db_salt p) (92 + blen (enc_recs recs), k, v))).
      unfold dents. apply in_map. apply datas_In. exact Hin. }
    destruct Hr as [(X1 & X2 & X3)|[_ []]].
    assert (Hk : db_key_size p < 65536) by apply Hp.
    cbn [enc_rec]. rewrite !blen_app, blen_wr48. lia.
  - specialize (Hl _ _ _ Hin (N.le_0_l _)).
    assert (Hc : blen es <= 3640).
    { destruct Hr as [(_ & X & _)|[_ (_ & X & _)]]; [|exact X]. rewrite X.
      assert (db_block_size p < 65536) by apply Hp.
      destruct (cap_bound (db_block_size p)) as [Q| ->]; [unfold bucket_size in Q|]; lia. }
    cbn [enc_rec]. rewrite !blen_app, blen_wr48, blen_wr16, blen_enc_bucket. unfold bucket_size. lia.
Qed.

Lemma block_min bs : 1 <= bucket_capacity bs -> key_hdr_size <= bs.
Proof.
  unfold bucket_capacity. destruct (N.ltb_spec bs key_hdr_size); simpl; lia.
Qed.

Lemma growth_le t f f' a b c :
  f' + t * c = f + 65536 * a + t * b -> f < t -> 65536 <= t -> c <= b + a.
Proof.
  intros H1 H2 H3. apply N.lt_succ_r. rewrite <- N.add_1_r. apply (N.mul_lt_mono_pos_l t); [lia|].
  assert (65536 * a <= t * a) by (apply N.mul_le_mono_r; auto). lia.
Qed.

Section Disk.
Variables (e : env) (p : dbp).
Hypothesis Hp : dbp_ok p.
Notation bs := (db_block_size p).
Notation ks := (db_key_size p).

Lemma p_cap : 1 <= bucket_capacity bs. Proof. apply Hp. Qed.
Lemma p_bs : bs <= 65535. Proof. destruct Hp as (_ & _ & _ & _ & _ & X & _). lia. Qed.
Lemma p_hdr : blen (db_hdr p) = dat_hdr_size. Proof. apply blen_dat_header. Qed.
Lemma p_kb : blen (db_kb e p) = bs.
Proof. apply (blen_key_header_block (db_kh e p 0)). apply block_min, p_cap. Qed.
Lemma p_thresh : 65536 <= db_thresh p. Proof. unfold db_thresh. lia. Qed.

Lemma disk_bent recs T w : disk e p recs T w ->
  forall B n, n < blen T -> bent_ok (db_kh e p B) (nthN T n b0).
Proof. intros [_ _ _ _ _ (M & Ht) _] B n Hn. eapply (cinv_bent_ok (db_kh e p B)); eauto. Qed.

Lemma disk_pow recs T w : disk e p recs T w ->
  1 <= blen T /\ blen T <= 4899999999999999999 /\ pow_ok (blen T) (ceil_pow2 (blen T)) /\
  tinv bs (placed recs) T (ceil_pow2 (blen T)) (dents e p recs).
Proof.
  intros [_ _ _ _ He (M & Ht) HB]. pose proof (ti_pow _ _ _ _ _ Ht) as Hpo.
  assert (Hb : db_base p <= 4611686018427387904) by apply Hp.
  destruct (pow_ok_pos _ _ Hpo) as [H1 _]. apply count_ents in He.
  assert (Hc : pow_ok (blen T) (ceil_pow2 (blen T))) by (apply ceil_pow2_ok; lia).
  splits; auto; try lia. rewrite (pow_ok_unique _ _ _ Hc Hpo). auto.
Qed.

(** Entries in a bucket and its chain. *)
Lemma dents_linked recs : Forall (drec_ok p) recs ->
  forall en, In en (dents e p recs) -> linked (e_hasher e) (db_salt p) ks (placed recs) en.
Proof.
  intros Hr en Hin. unfold dents in Hin. apply in_map_iff in Hin as ([[o k] v] & <- & Hin).
  apply datas_In in Hin. exists k, v. simpl. splits; auto.
  assert (X : In (DRec k v) recs).
  { clear - Hin. unfold placed in Hin. revert Hin. generalize dat_hdr_size.
    induction recs as [|r l IH]; intros o1 Hin; simpl in Hin; [tauto|].
    destruct Hin as [E|Hin]; [left; congruence|right; eauto]. }
  rewrite Forall_forall in Hr. apply Hr in X as [X|[_ []]]. apply X.
Qed.

Lemma locate recs T w k B :
  disk e p recs T w -> blen k = ks ->
  let kh := db_kh e p B in
  let n := bucket_index (hash (e_hasher e) (db_salt p) k) (blen T) (ceil_pow2 (blen T)) in
  exists b es sp ces,
    run (bk_read (fresh e bs) FKey ((n + 1) * bs)) w = (w, Ok b) /\
    bk_rep bs b es sp /\ ents_ok es /\ chain bs (placed recs) sp ces /\
    Forall (linked (e_hasher e) (db_salt p) ks (placed recs)) (es ++ ces) /\
    forall o v, In (o, DRec k v) (placed recs) ->
      exists en, In en (es ++ ces) /\ en_off en = o /\ en_hash en = hash (e_hasher e) (db_salt p) k.
Proof.
  intros Hd Hk kh n. destruct (disk_pow _ _ _ Hd) as (H1 & H2 & Hpo & Ht).
  assert (Hn : n < blen T) by (apply bucket_index_lt; auto).
  destruct (read_key_bucket e kh (db_thresh p) p_cap p_bs eq_refl p_thresh (db_hdr p) (db_kb e p) T
    p_hdr p_kb (disk_bent _ _ _ Hd B) T w n (dk_key _ _ _ _ _ Hd) (disk_bent _ _ _ Hd B) Hn) as (b & Hr & R).
  destruct (ti_b _ _ _ _ _ Ht n Hn) as [O C _ (ces & Hch & Hperm)].
  exists b, (fst (nthN T n b0)), (snd (nthN T n b0)), ces. splits; auto.
  - rewrite Forall_forall. intros en Hin.
    eapply Permutation_in in Hin; [|exact Hperm]. apply filter_In in Hin as [Hin _].
    apply dents_linked; auto. apply Hd.
  - intros o v Hin. exists (Entry o (blen v) (hash (e_hasher e) (db_salt p) k)). splits; auto.
    eapply Permutation_in; [symmetry; exact Hperm|]. apply filter_In. split.
    + unfold dents. apply in_map_iff. exists (o, k, v). split; auto. apply datas_In; auto.
    + unfold mine. simpl. apply N.eqb_refl.
Qed.

Lemma disk_holds recs T w : disk e p recs T w ->
  holds (db_hdr p ++ enc_recs recs) (placed recs) /\ functional (placed recs).
Proof. intros _. split; [apply holds_placed, p_hdr|apply functional_placed]. Qed.

(** ** The open store *)
Record sinv (recs : list drec) (T : list bent) (s : store) (w : world) : Prop := SInv {
  si_disk : disk e p recs T w;
  si_log : wget w FLog = Some [];
  si_kh : exists B, st_kh s = db_kh e p B;
  si_p0 : st_p0 s = pool_empty;
  si_c1 : st_c1 s = [];
  si_ec : st_ec s = None;
  si_thresh : st_thresh s = db_thresh p;
  si_frac : st_frac s < db_thresh p;
  si_buckets : st_buckets s = blen T;
  si_modulus : st_modulus s = ceil_pow2 (blen T);
  si_batch : Forall (fun x => pe_hash x = hash (e_hasher e) (db_salt p) (pe_key x) /\
      blen (pe_key x) = ks /\ 0 < blen (pe_data x) /\ blen (pe_data x) < 4294967296)
      (pl_map (st_p1 s));
  si_nd : NoDup (pkeys (pl_map (st_p1 s)) ++ map fst (kvs recs)) }.

(** What the store holds. *)
Definition abs (recs : list drec) (s : store) (k : bytes) : option bytes :=
  match pool_find (st_p1 s) k with
  | Some x => Some (pe_data x)
  | None => kfind (kvs recs) k
  end.

Lemma fetch_ok recs T s w k :
  sinv recs T s w -> blen k = ks ->
  run (store_fetch e s k) w =
  (w, match abs recs s k with Some v => Ok v | None => Er key_not_found end).
Proof.
  intros [Hd Hl (B & Hkh) Hp0 Hc1 Hec Hth Hfr Hbu Hmo Hba Hnd] Hk.
  unfold store_fetch, abs. rewrite Hec, Hkh. cbv zeta.
  destruct (pool_find (st_p1 s) k) as [x|]; [reflexivity|].
  rewrite Hp0. change (pool_find pool_empty k) with (@None pelem). cbv iota.
  rewrite Hc1. cbn [cache_find]. rewrite Hbu, Hmo.
  destruct (locate recs T w k B Hd Hk) as (b & es & sp & ces & Hr & R & O & Hch & Hli & Hall).
  cbn [db_kh kh_salt kh_block_size].
  rewrite (run_ebind_ok _ _ _ _ _ Hr).
  destruct (disk_holds _ _ _ Hd) as [Hho Hfu].
  destruct (fetch_bucket_ok e (db_kh e p B) p_cap p_bs w _ (placed recs) (dk_dat _ _ _ _ _ Hd) Hho Hfu
    b es sp ces (hash (e_hasher e) (db_salt p) k) k R O Hch Hli Hk) as (r & Hrun & Hpost).
  rewrite Hrun. f_equal. destruct r as [v|er].
  - destruct Hpost as (en & _ & Hin).
    assert (X : In (k, v) (kvs recs)) by (apply kvs_In; eauto).
    apply kfind_In in X; [rewrite X; auto|apply Hd].
  - destruct Hpost as [-> Hno]. destruct (kfind (kvs recs) k) as [v|] eqn:E; auto.
    exfalso. apply kfind_In in E; [|apply Hd]. apply kvs_In in E as (o & Ho).
    destruct (Hall o v Ho) as (en & Hen & <- & Hh). eapply Hno; eauto.
Qed.

Lemma pmap_find_insert l x k :
  ~ In (pe_key x) (pkeys l) ->
  pmap_find (pmap_insert l x) k = if beq (pe_key x) k then Some x else pmap_find l k.
Proof.
  induction l as [|y l IH]; simpl; intros Hn; [auto|].
  destruct (blt (pe_key x) (pe_key y)) eqn:E1; [reflexivity|].
  destruct (blt (pe_key y) (pe_key x)) eqn:E2.
  - simpl. rewrite IH by tauto. destruct (beq (pe_key y) k) eqn:E3; auto.
    destruct (beq (pe_key x) k) eqn:E4; auto.
    apply beq_eq in E3, E4. exfalso. apply Hn. left. congruence.
  - exfalso. apply Hn. left. symmetry. apply blt_total; auto.
Qed.

Definition pe_new (k v : bytes) : pelem := PElem (hash (e_hasher e) (db_salt p) k) k v.

Lemma insert_ok recs T s w k v :
  sinv recs T s w -> blen k = ks -> 0 < blen v -> blen v < 4294967296 ->
  match abs recs s k with
  | Some _ => run (store_insert e s k v) w = (w, Er key_exists)
  | None => exists s', run (store_insert e s k v) w = (w, Ok s') /\ sinv recs T s' w /\
      Permutation (pl_map (st_p1 s')) (pe_new k v :: pl_map (st_p1 s)) /\
      st_frac s' = st_frac s /\
      forall k', abs recs s' k' = if beq k k' then Some v else abs recs s k'
  end.
Proof.
  intros [Hd Hl (B & Hkh) Hp0 Hc1 Hec Hth Hfr Hbu Hmo Hba Hnd] Hk Hv1 Hv2.
  unfold store_insert, abs. rewrite Hec, Hkh. cbv zeta.
  replace ((blen v =? 0) || (4294967295 <? blen v)) with false by (symmetry; apply orb_false_iff; lia).
  destruct (pool_find (st_p1 s) k) as [x|] eqn:Ef; [reflexivity|].
  rewrite Hp0. change (pool_find pool_empty k) with (@None pelem). cbv iota.
  rewrite Hc1. cbn [cache_find]. rewrite Hbu, Hmo.
  destruct (locate recs T w k B Hd Hk) as (b & es & sp & ces & Hr & R & O & Hch & Hli & Hall).
  cbn [db_kh kh_salt kh_block_size].
  destruct (disk_holds _ _ _ Hd) as [Hho Hfu].
  destruct (exists_bucket_ok e (db_kh e p B) p_cap p_bs w _ (placed recs) (dk_dat _ _ _ _ _ Hd) Hho Hfu
    b es sp ces (hash (e_hasher e) (db_salt p) k) k R O Hch Hli Hk) as (r & Hrun & Hpost).
  assert (Hfound : r = match kfind (kvs recs) k with Some _ => true | None => false end).
  { destruct r.
    - destruct Hpost as (en & v' & _ & Hin).
      assert (X : In (k, v') (kvs recs)) by (apply kvs_In; eauto).
      apply kfind_In in X; [rewrite X; auto|apply Hd].
    - destruct (kfind (kvs recs) k) as [v'|] eqn:E; auto.
      exfalso. apply kfind_In in E; [|apply Hd]. apply kvs_In in E as (o & Ho).
      destruct (Hall o v' Ho) as (en & Hen & <- & Hh). eapply Hpost; eauto. }
  assert (Hread : run (b0 <- bk_read (fresh e bs) FKey
      ((bucket_index (hash (e_hasher e) (db_salt p) k) (blen T) (ceil_pow2 (blen T)) + 1) * bs) ;;
      exists_bucket e (db_kh e p B) (hash (e_hasher e) (db_salt p) k) k b0) w = (w, Ok r)).
  { rewrite (run_ebind_ok _ _ _ _ _ Hr). exact Hrun. }
  destruct (kfind (kvs recs) k) as [v'|] eqn:Ek; rewrite Hfound in Hread.
  - rewrite (run_ebind_ok _ _ _ _ _ Hread). reflexivity.
  - eexists. split; [rewrite (run_ebind_ok _ _ _ _ _ Hread); reflexivity|].
    assert (Hnk : ~ In (pe_key (pe_new k v)) (pkeys (pl_map (st_p1 s)))).
    { apply pmap_find_none. exact Ef. }
    pose proof (pmap_insert_perm _ _ Hnk) as Hperm. splits.
    + constructor; cbn [st_kh st_p0 st_p1 st_c1 st_frac st_thresh st_buckets st_modulus st_ec]; eauto.
      * cbn [pool_insert pl_map]. rewrite Forall_forall in *. intros x Hx.
        eapply Permutation_in in Hx; [|exact Hperm]. destruct Hx as [<-|Hx]; simpl; auto.
      * cbn [pool_insert pl_map]. eapply Permutation_NoDup.
        { apply Permutation_app_tail. symmetry. apply Permutation_map. exact Hperm. }
        simpl. constructor; auto. rewrite in_app_iff. intros [X|X]; [auto|].
        apply kfind_none in Ek. auto.
    + exact Hperm.
    + reflexivity.
    + intros k'. cbn [st_p1]. unfold pool_find, pool_insert. cbn [pl_map].
      rewrite (pmap_find_insert _ (pe_new k v)) by exact Hnk. simpl.
      destruct (beq k k'); auto.
Qed.

(** ** Flushing *)
Lemma kvs_recs l : kvs (map rec_of l) = map (fun x => (pe_key x, pe_data x)) l.
Proof. induction l as [|x l IH]; simpl; auto. rewrite IH. auto. Qed.

Lemma kvs_spills kh news : spills_only kh news -> kvs news = [].
Proof. induction 1 as [|r l (_ & es & sp & ->) Hl IH]; simpl; auto. Qed.

Lemma pool_kfind l k :
  kfind (map (fun x => (pe_key x, pe_data x)) l) k = option_map pe_data (pmap_find l k).
Proof. induction l as [|x l IH]; simpl; auto. destruct (beq (pe_key x) k); auto. Qed.

(** Everything a commit does, phase by phase. *)
Record commit_run (recs : list drec) (T : list bent) (s : store) (w : world)
    (news : list drec) (st : cstate) (T' : list bent) : Prop := CommitRun {
  cr_recs := recs ++ map rec_of (pl_map (st_p1 s)) ++ news;
  cr_begin : run (commit_begin e (st_kh s)) w = (wset w FLog (Some (log0 e (st_kh s) recs T)), Ok tt);
  cr_data : run (commit_data e (st_kh s) (st_thresh s) (st_frac s) (st_buckets s) (st_modulus s)
                   (pl_map (st_p1 s))) (wset w FLog (Some (log0 e (st_kh s) recs T))) =
            (wset (wset w FLog (Some (log0 e (st_kh s) recs T))) FDat
               (Some (db_hdr p ++ enc_recs cr_recs)), Ok st);
  cr_spills : spills_only (st_kh s) news;
  cr_cinv : cinv (st_kh s) T T' (cs_c0 st) (cs_c1 st);
  cr_buckets : cs_buckets st = blen T';
  cr_growth : cs_frac st + st_thresh s * blen T' =
              st_frac s + 65536 * blen (pl_map (st_p1 s)) + st_thresh s * blen T;
  cr_frac : cs_frac st < st_thresh s;
  cr_disk : disk e p cr_recs T'
     (World (Some (db_hdr p ++ enc_recs cr_recs)) (Some (kfile bs (db_kb e p) T')) (Some []));
  cr_modulus : cs_modulus st = ceil_pow2 (blen T') }.

Lemma commit_data_run recs T s w :
  sinv recs T s w ->
  exists news, spills_only (st_kh s) news /\
    blen news <= blen (pl_map (st_p1 s)) * (blen (kvs recs) + blen (pl_map (st_p1 s))) /\
    ((exists st T', commit_run recs T s w news st T') \/
     exists w', too_big datbuf w' (recs ++ map rec_of (pl_map (st_p1 s)) ++ news) /\
        run (commit e s) w = (w', Er EAssert) /\
        run (commit_begin e (st_kh s)) w = (wset w FLog (Some (log0 e (st_kh s) recs T)), Ok tt) /\
        run (commit_data e (st_kh s) (st_thresh s) (st_frac s) (st_buckets s) (st_modulus s)
               (pl_map (st_p1 s))) (wset w FLog (Some (log0 e (st_kh s) recs T))) = (w', Er EAssert)).
Proof.
  intros [Hd Hl (B & Hkh) Hp0 Hc1 Hec Hth Hfr Hbu Hmo Hba Hnd].
  destruct (disk_pow _ _ _ Hd) as (H1 & H2 & Hpo & Ht).
  set (kh := db_kh e p B). set (l := pl_map (st_p1 s)) in *.
  pose proof (disk_bent _ _ _ Hd B) as Hbent.
  pose proof (commit_begin_ok e kh p_cap (db_hdr p) (db_kb e p) p_hdr p_kb recs T w Hbent
    (dk_dat _ _ _ _ _ Hd) (dk_key _ _ _ _ _ Hd) Hl) as Hbegin.
  set (w1 := wset w FLog (Some (log0 e kh recs T))) in *.
  destruct (commit_data_ok e kh (db_thresh p) p_cap p_bs eq_refl p_thresh (db_hdr p) (db_kb e p) p_hdr p_kb
    recs T (ceil_pow2 (blen T)) (st_frac s) l w1 ltac:(cbn; destruct Hp as (_ & _ & _ & X & _); lia) Ht Hfr Hba) as (news & w2 & r & Hr & Hs & Hn & Hpost).
  { unfold w1. rewrite wget_wset_other by discriminate. apply Hd. }
  { unfold w1. rewrite wget_wset_other by discriminate. apply Hd. }
  exists news. rewrite Hkh. fold kh.
  change (ents e kh recs) with (dents e p recs) in Hn. rewrite blen_dents in Hn.
  splits; auto. destruct r as [st|er].
  - destruct Hpost as (T' & -> & Ht' & Hb' & Hc' & Hf' & Hg' & Hok' & Hlow').
    left. exists st, T'.
    assert (Hdisk : disk e p (recs ++ map rec_of l ++ news) T'
      (World (Some (db_hdr p ++ enc_recs (recs ++ map rec_of l ++ news))) (Some (kfile bs (db_kb e p) T')) (Some []))).
    { constructor; auto.
      - apply Forall_app. split; [apply Hd|]. apply Forall_app. split.
        + rewrite Forall_forall. intros x Hx. apply in_map_iff in Hx as (y & <- & Hy).
          rewrite Forall_forall in Hba. apply Hba in Hy. left. simpl. tauto.
        + eapply Forall_impl; [|exact Hs]. intros x (Hx & _). left. exact Hx.
      - rewrite !kvs_app, kvs_recs, (kvs_spills _ _ Hs), app_nil_r, map_app, map_map.
        eapply Permutation_NoDup; [apply Permutation_app_comm|]. exact Hnd.
      - unfold dents. rewrite placed_app, datas_app, map_app. apply Forall_app. split; [apply Hd|].
        rewrite place_app, datas_app, (spills_only_datas _ _ _ Hs), app_nil_r. exact Hok'.
      - exists (cs_modulus st). exact Ht'.
      - rewrite !kvs_app, kvs_recs, (kvs_spills _ _ Hs), app_nil_r, blen_app, blen_map.
        pose proof (dk_B _ _ _ _ _ Hd) as HB.
        pose proof p_thresh as Hpt.
        assert (X : blen T' <= blen T + blen l).
        { eapply growth_le; eauto. }
        lia.
      - apply low_app; [apply (dk_low _ _ _ _ _ Hd)|exact Hlow']. }
    constructor; rewrite ?Hkh, ?Hth, ?Hbu, ?Hmo; fold kh; fold l; auto.
    destruct (disk_pow _ _ _ Hdisk) as (_ & _ & Hpo' & _).
    eapply pow_ok_unique; [apply Ht'|exact Hpo'].
  - destruct Hpost as [-> Hbig]. right.
    exists w2. split; [exact Hbig|]. split; [|rewrite ?Hkh, Hth, Hbu, Hmo; auto].
    unfold commit. rewrite Hkh, Hth, Hbu, Hmo. fold kh. fold l.
    cbv zeta. rewrite (run_ebind_ok _ _ _ _ _ Hbegin). rewrite (run_ebind_er _ _ _ _ _ Hr). auto.
Qed.

(** The log after the bucket images have been written. *)
Definition log1 (recs : list drec) (T : list bent) (s : store) (st : cstate) : bytes :=
  log0 e (st_kh s) recs T ++ flat_map log_record (e_iter e (cs_c0 st)).

Hypothesis Hit : iter_ok e.

Lemma commit_rest recs T s w news st T' :
  sinv recs T s w -> commit_run recs T s w news st T' ->
  let recs' := recs ++ map rec_of (pl_map (st_p1 s)) ++ news in
  let w2 := World (Some (db_hdr p ++ enc_recs recs')) (Some (kfile bs (db_kb e p) T))
              (Some (log0 e (st_kh s) recs T)) in
  let w3 := World (Some (db_hdr p ++ enc_recs recs')) (Some (kfile bs (db_kb e p) T))
              (Some (log1 recs T s st)) in
  let w4 := World (Some (db_hdr p ++ enc_recs recs')) (Some (kfile bs (db_kb e p) T'))
              (Some (log1 recs T s st)) in
  let w5 := World (Some (db_hdr p ++ enc_recs recs')) (Some (kfile bs (db_kb e p) T'))
              (Some []) in
  wset (wset w FLog (Some (log0 e (st_kh s) recs T))) FDat (Some (db_hdr p ++ enc_recs recs')) = w2 /\
  run (commit_log e (cs_c0 st)) w2 = (w3, Ok tt) /\
  run (commit_key (kh_block_size (st_kh s)) (e_iter e (cs_c1 st))) w3 = (w4, Ok tt) /\
  run commit_end w4 = (w5, Ok tt).
Proof.
  intros [Hd Hl (B & Hkh) Hp0 Hc1 Hec Hth Hfr Hbu Hmo Hba Hnd] [recs1 C1 C2 C3 C4 C5 C6 C7 C8 C9].
  intros recs' w2 w3 w4 w5. splits.
  - destruct w as [wd wk wl]. pose proof (dk_key _ _ _ _ _ Hd) as X. unfold wget in X; cbn [w_key] in X. unfold w2, wset. cbn [w_dat w_key w_log]. rewrite X. reflexivity.
  - rewrite (run_commit_log e (cs_c0 st) w2 (log0 e (st_kh s) recs T)) by reflexivity. reflexivity.
  - rewrite Hkh. pose proof (commit_key_ok e (db_kh e p B) (db_thresh p) p_cap p_bs eq_refl p_thresh Hit
      (db_hdr p) (db_kb e p) p_hdr p_kb T T' (cs_c0 st) (cs_c1 st) w3) as X.
    rewrite Hkh in C4. rewrite X; auto.
    + apply (disk_bent _ _ _ Hd).
    + apply (disk_bent _ _ _ C8).
  - erewrite commit_end_ok; reflexivity.
Qed.

Lemma commit_ok recs T s w news st T' :
  sinv recs T s w -> commit_run recs T s w news st T' ->
  let recs' := recs ++ map rec_of (pl_map (st_p1 s)) ++ news in
  let s' := Store (st_kh s) pool_empty pool_empty [] (cs_frac st) (st_thresh s)
              (cs_buckets st) (cs_modulus st) None in
  let w' := World (Some (db_hdr p ++ enc_recs recs')) (Some (kfile bs (db_kb e p) T')) (Some []) in
  run (commit e s) w = (w', Ok s') /\ sinv recs' T' s' w' /\
  (forall k, abs recs' s' k = abs recs s k).
Proof.
  intros Hi Hc recs' s' w'.
  destruct (commit_rest _ _ _ _ _ _ _ Hi Hc) as (R1 & R2 & R3 & R4).
  destruct Hi as [Hd Hl (B & Hkh) Hp0 Hc1 Hec Hth Hfr Hbu Hmo Hba Hnd].
  destruct Hc as [recs1 C1 C2 C3 C4 C5 C6 C7 C8 C9].
  splits.
  - unfold commit. cbv zeta. rewrite (run_ebind_ok _ _ _ _ _ C1).
    fold recs1 in R1. fold recs' in recs1. rewrite (run_ebind_ok _ _ _ _ _ C2). rewrite R1.
    rewrite (run_ebind_ok _ _ _ _ _ R2). rewrite (run_ebind_ok _ _ _ _ _ R3).
    rewrite (run_ebind_ok _ _ _ _ _ R4). rewrite Hp0. reflexivity.
  - constructor; simpl; eauto; try lia. apply C8.
  - intros k. unfold abs, s'. cbn [st_p1]. change (pool_find pool_empty k) with (@None pelem). cbv iota.
    unfold recs'. rewrite !kvs_app, kvs_recs, (kvs_spills _ _ C3), app_nil_r, kfind_app, pool_kfind.
    unfold pool_find.
    destruct (pmap_find (pl_map (st_p1 s)) k) as [x|] eqn:E; simpl.
    + apply pmap_find_In in E as [E1 E2].
      assert (X : kfind (kvs recs) k = None).
      { apply kfind_none. intros Y. subst k.
        apply (in_map pe_key) in E1.
        assert (Z : forall (a b : list bytes) z, NoDup (a ++ b) -> In z a -> In z b -> False).
        { clear. induction a as [|y a IH]; simpl; intros b z Hn; [tauto|]. inversion Hn; subst.
          intros [->|Ha] Hb; [apply H1; apply in_app_iff; auto|eauto]. }
        eapply Z; eauto. }
      rewrite X. auto.
    + destruct (kfind (kvs recs) k); auto.
Qed.
End Disk.
