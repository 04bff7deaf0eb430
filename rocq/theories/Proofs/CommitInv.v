(** The invariant of the commit loop. *)
From Verif Require Import Model.Bytes Model.Err Model.Field Model.Format Model.IO
  Model.BulkIO Model.Bucket Model.Pool Model.Store
  Proofs.BytesFacts Proofs.FieldFacts Proofs.IOFacts Proofs.BucketFacts Proofs.BulkFacts
  Proofs.HashFacts Proofs.Table Proofs.Lookup Proofs.SplitFacts Proofs.CommitFacts.

Definition b0 : bent := ([], 0).

Lemma rep_reblob bs b es sp : bs <= 65535 -> bk_rep bs b es sp -> bk_rep bs (bk_of_blob (bk_blob b)) es sp.
Proof.
  intros Hb R. destruct (rep_blob _ _ _ _ R) as [pad Hp]. eapply bk_of_blob_rep; eauto; apply R.
Qed.

Lemma cache_blob_rep e bs b es sp :
  bs <= 65535 -> bk_rep bs b es sp -> bk_rep bs (bk_of_blob (cache_blob e b)) es sp.
Proof.
  intros Hb R. unfold cache_blob, bk_bs. rewrite (compact_rep _ _ _ _ R), (rep_len _ _ _ _ R).
  pose proof (rep_size_le _ _ _ _ R) as Hs.
  eapply bk_of_blob_rep; try apply R; auto.
  - rewrite bwrite_in by (rewrite blen_enc_bucket, blen_fresh; lia).
    rewrite btake_0. simpl app at 1. reflexivity.
  - rewrite blen_bwrite; rewrite ?blen_enc_bucket, blen_fresh; lia.
Qed.

Lemma hash_lt H salt k : hash H salt k < 281474976710656.
Proof.
  unfold hash, make_hash. change 281474976710655 with (N.ones 48). rewrite N.land_ones.
  change 281474976710656 with (2 ^ 48). apply N.mod_lt. discriminate.
Qed.

Section Commit.
Variables (e : env) (kh : key_header) (thresh : N).
Let H := e_hasher e.
Let salt := kh_salt kh.
Let ks := kh_key_size kh.
Let bs := kh_block_size kh.
Hypothesis Hcap : 1 <= bucket_capacity bs.
Hypothesis Hbs : bs <= 65535.
Hypothesis Hkc : kh_capacity kh = bucket_capacity bs.
Hypothesis Hth : 65536 <= thresh.
Variables (hdr : bytes) (w0 : world) (kb : bytes) (T0 : list bent) (Z : N -> Prop) (base : N).
Hypothesis HZ : buf_ok Z.
Hypothesis Hhdr : blen hdr = dat_hdr_size.
Hypothesis Hkb : blen kb = bs.
Hypothesis HK : wget w0 FKey = Some (kfile bs kb T0).

(** Well-formed buckets. *)
Definition bent_ok (b : bent) : Prop :=
  ents_ok (fst b) /\ blen (fst b) <= bucket_capacity bs /\ snd b < 281474976710656.
Hypothesis HT0 : forall n, n < blen T0 -> bent_ok (nthN T0 n b0).

Lemma bent_ok_fits b : bent_ok b -> fits bs b.
Proof using Hcap.
  intros (_ & Hc & _). unfold fits. destruct (cap_bound bs) as [E|E]; clear - Hc Hcap E; unfold bucket_size in *; lia.
Qed.

Lemma T_fits T : (forall n, n < blen T -> bent_ok (nthN T n b0)) -> Forall (fits bs) T.
Proof using Hcap.
  intros HT. rewrite Forall_forall. intros b Hin. apply (In_nth _ _ b0) in Hin as (i & Hi & <-).
  specialize (HT (N.of_nat i)). unfold nthN, blen in HT. rewrite Nat2N.id in HT.
  apply bent_ok_fits, HT. clear - Hi. lia.
Qed.

Lemma inv_bent_ok P b l : bucket_inv bs P b l -> bent_ok b.
Proof.
  intros [O C _ (ces & Hch & _)]. split; [auto|split; auto]. eapply chain_lt; eauto.
Qed.

(** Reading a bucket of the key file. *)
Lemma read_key_bucket T w n :
  wget w FKey = Some (kfile bs kb T) -> (forall n, n < blen T -> bent_ok (nthN T n b0)) -> n < blen T ->
  exists b, run (bk_read (fresh e bs) FKey ((n + 1) * bs)) w = (w, Ok b) /\
    bk_rep bs b (fst (nthN T n b0)) (snd (nthN T n b0)).
Proof.
  intros Hw HT Hn. destruct (kfile_block bs kb T n Hkb (T_fits T HT) Hn) as [H1 H2].
  destruct (HT n Hn) as ((Hs & Ho) & Hc & Hsp).
  assert (Hfit : bucket_size (bucket_capacity bs) <= bs) by (destruct (cap_bound bs); lia).
  pose proof (bk_read_rep (fresh e bs) FKey ((n + 1) * bs) w (kfile bs kb T)
    (fst (nthN T n b0)) (snd (nthN T n b0))
    (zeros (bucket_size (bucket_capacity bs) - bucket_size (blen (fst (nthN T n b0)))))) as X.
  rewrite blen_fresh in X. apply X; clear X; auto; try lia.
  replace (bsub ((n + 1) * bs) (bucket_size (bucket_capacity bs)) (kfile bs kb T)) with
    (bsub 0 (bucket_size (bucket_capacity bs)) (bsub ((n + 1) * bs) bs (kfile bs kb T)))
    by (rewrite bsub_bsub; [f_equal; lia|lia]).
  rewrite H2. unfold kblock, enc_block. rewrite bsub_0.
  assert (Hle : bucket_size (blen (fst (nthN T n b0))) <= bucket_size (bucket_capacity bs))
    by (unfold bucket_size; lia).
  unfold b0 in *. rewrite btake_app_r by (rewrite blen_enc_bucket; auto).
  f_equal. rewrite blen_enc_bucket.
  set (m := bucket_size (bucket_capacity bs) - _).
  replace (bs - bucket_size (blen (fst (nthN T n ([], 0))))) with
    (m + (bs - bucket_size (blen (fst (nthN T n ([], 0)))) - m)) by lia.
  rewrite <- zeros_app. apply btake_app_eq. rewrite blen_zeros. auto.
Qed.

(** Caches describe the tables. *)
Definition brep (p : bytes) (b : bent) : Prop := bk_rep bs (bk_of_blob p) (fst b) (snd b).

Record cinv (T : list bent) (c0 c1 : cache) : Prop := CInv {
  ci_c1 : forall n p, cache_find c1 n = Some p -> n < blen T /\ brep p (nthN T n b0);
  ci_n : forall n, n < blen T -> cache_find c1 n = None -> n < blen T0 /\ nthN T n b0 = nthN T0 n b0;
  ci_c0 : forall n p, cache_find c0 n = Some p -> n < blen T0 /\ brep p (nthN T0 n b0);
  ci_01 : forall n, n < blen T0 -> cache_find c1 n <> None -> cache_find c0 n <> None;
  ci_nd0 : NoDup (map fst c0);
  ci_nd1 : NoDup (map fst c1);
  ci_len : blen T0 <= blen T }.

Lemma cinv_init : cinv T0 [] [].
Proof.
  constructor; try (simpl; discriminate); auto; try apply N.le_refl; try (simpl; constructor).
Qed.

Lemma cinv_add T c0 c1 n p q :
  cinv T c0 c1 -> n < blen T -> cache_find c1 n = None ->
  brep p (nthN T n b0) -> (cache_find c0 n <> None /\ q = c0 \/ q = cache_set c0 n p) ->
  cinv T q (cache_set c1 n p).
Proof.
  intros [A1 A2 A3 A4 A5 A6 A7] Hn Hf Hb Hq. destruct (A2 n Hn Hf) as [Hn0 HE].
  constructor; auto.
  - intros m r. destruct (N.eq_dec m n) as [->|Hm].
    + rewrite cache_find_set_same. intros X; injection X; intros; subst. auto.
    + rewrite cache_find_set_other by auto. auto.
  - intros m Hm. destruct (N.eq_dec m n) as [->|Hmn].
    + rewrite cache_find_set_same. discriminate.
    + rewrite cache_find_set_other by auto. auto.
  - destruct Hq as [[_ ->]| ->]; auto.
    intros m r. destruct (N.eq_dec m n) as [->|Hm].
    + rewrite cache_find_set_same. intros X; injection X; intros; subst. rewrite <- HE. auto.
    + rewrite cache_find_set_other by auto. auto.
  - intros m Hm. destruct (N.eq_dec m n) as [->|Hmn].
    + intros _. destruct Hq as [[X ->]| ->]; auto. rewrite cache_find_set_same. discriminate.
    + rewrite cache_find_set_other by auto. intros X. specialize (A4 m Hm X).
      destruct Hq as [[_ ->]| ->]; auto. rewrite cache_find_set_other by auto. auto.
  - destruct Hq as [[_ ->]| ->]; auto using cache_set_nodup.
  - apply cache_set_nodup; auto.
Qed.

(** Changing a bucket that is in the cache. *)
Lemma cinv_set T c0 c1 n p b :
  cinv T c0 c1 -> n < blen T -> cache_find c1 n <> None -> brep p b ->
  cinv (setN T n b) c0 (cache_set c1 n p).
Proof.
  intros [A1 A2 A3 A4 A5 A6 A7] Hn Hf Hb.
  constructor; rewrite ?blen_setN by auto; auto.
  - intros m r. destruct (N.eq_dec m n) as [->|Hm].
    + rewrite cache_find_set_same, nthN_setN_same by auto. intros X; injection X; intros; subst. auto.
    + rewrite cache_find_set_other, nthN_setN_other by auto. auto.
  - intros m Hm. destruct (N.eq_dec m n) as [->|Hmn].
    + rewrite cache_find_set_same. discriminate.
    + rewrite cache_find_set_other, nthN_setN_other by auto. auto.
  - intros m Hm. destruct (N.eq_dec m n) as [->|Hmn]; auto.
    rewrite cache_find_set_other by auto. auto.
  - apply cache_set_nodup; auto.
Qed.

(** Adding a bucket at the end. *)
Lemma cinv_grow T c0 c1 p b :
  cinv T c0 c1 -> brep p b -> cinv (T ++ [b]) c0 (cache_set c1 (blen T) p).
Proof.
  intros [A1 A2 A3 A4 A5 A6 A7] Hb.
  assert (Hl : blen (T ++ [b]) = blen T + 1) by (rewrite blen_app, blen_cons, blen_nil; lia).
  constructor; rewrite ?Hl; auto; try lia.
  - intros m r. destruct (N.eq_dec m (blen T)) as [->|Hm].
    + rewrite cache_find_set_same. rewrite nthN_app_r by lia. rewrite N.sub_diag, nthN_0.
      intros X; injection X; intros; subst. split; [lia|auto].
    + rewrite cache_find_set_other by auto. intros X. destruct (A1 _ _ X).
      rewrite nthN_app_l by auto. split; [lia|auto].
  - intros m Hm. destruct (N.eq_dec m (blen T)) as [->|Hmn].
    + rewrite cache_find_set_same. discriminate.
    + rewrite cache_find_set_other by auto. rewrite nthN_app_l by lia. intros; apply A2; auto; lia.
  - intros m Hm. rewrite cache_find_set_other by lia. auto.
  - apply cache_set_nodup; auto.
Qed.

Lemma load_ok T c0 c1 w n :
  wget w FKey = Some (kfile bs kb T0) -> cinv T c0 c1 -> n < blen T ->
  exists b c0' c1', run (load e kh n c0 c1) w = (w, Ok (b, c0', c1')) /\
    bk_rep bs b (fst (nthN T n b0)) (snd (nthN T n b0)) /\
    cinv T c0' c1' /\ cache_find c1' n <> None.
Proof.
  intros Hw Hc Hn. unfold load. destruct (cache_find c1 n) as [p|] eqn:E1.
  - exists (bk_of_blob p), c0, c1. splits; auto; [|congruence]. apply (ci_c1 _ _ _ Hc); auto.
  - destruct (ci_n _ _ _ Hc n Hn E1) as [Hn0 HE].
    destruct (cache_find c0 n) as [p|] eqn:E0.
    + assert (Hb : brep (cache_blob e (bk_of_blob p)) (nthN T n b0)).
      { apply cache_blob_rep; auto. rewrite HE. apply (ci_c0 _ _ _ Hc); auto. }
      do 3 eexists. split; [reflexivity|]. splits; auto.
      * eapply cinv_add; eauto. left. split; auto. congruence.
      * rewrite cache_find_set_same. discriminate.
    + destruct (read_key_bucket T0 w n Hw HT0 Hn0) as (b & Hr & R).
      assert (Hb : brep (cache_blob e b) (nthN T n b0)).
      { rewrite HE. apply cache_blob_rep; auto. }
      do 3 eexists. split; [erewrite run_ebind_ok by exact Hr; reflexivity|]. splits; auto.
      * eapply cinv_add; eauto.
      * rewrite cache_find_set_same. discriminate.
Qed.

Notation wst := (wst hdr w0 Z base).
Notation spills_only := (spills_only kh).

(** State of the insert loop. *)
Record cst (recs : list drec) (T : list bent) (E : list entry) (st : cstate) (w : world) : Prop := Cst {
  cst_w : wst recs w (cs_w st);
  cst_t : tinv bs (placed recs) T (cs_modulus st) E;
  cst_b : cs_buckets st = blen T;
  cst_c : cinv T (cs_c0 st) (cs_c1 st);
  cst_f : cs_frac st < thresh }.

Lemma wst_key recs w bw : wst recs w bw -> wget w FKey = Some (kfile bs kb T0).
Proof. intros [[(d & ->) _] _]. rewrite wget_wset_other by discriminate. auto. Qed.

Lemma filter_ext_in' {A} (f g : A -> bool) l : (forall x, f x = g x) -> filter f l = filter g l.
Proof. intros Hfg. apply filter_ext. auto. Qed.

Lemma filter_filter {A} (f g : A -> bool) l : filter f (filter g l) = filter (fun x => g x && f x) l.
Proof.
  induction l as [|x l IH]; simpl; auto. destruct (g x) eqn:Eg; simpl; [destruct (f x)|]; rewrite IH; auto.
Qed.

Lemma commit_split_ok recs T E st w :
  cst recs T E st w ->
  exists news w' r, run (commit_split e kh thresh st) w = (w', r) /\ spills_only news /\
    blen news <= blen E /\
    match r with
    | Er er => er = EAssert /\ too_big Z w' (recs ++ news)
    | Ok st' => exists T', cst (recs ++ news) T' E st' w' /\
        cs_frac st' + thresh * blen T' = cs_frac st + 65536 + thresh * blen T
    end.
Proof.
  intros [Cw Ct Cb Cc Cf]. unfold commit_split. cbv zeta.
  destruct (N.leb_spec thresh (cs_frac st + 65536)) as [L|L].
  - pose proof (ti_pow _ _ _ _ _ Ct) as Hpow. rewrite Cb.
    set (M' := if blen T =? cs_modulus st then cs_modulus st * 2 else cs_modulus st).
    assert (Hpow' : pow_ok (blen T + 1) M') by (apply pow_ok_grow; auto).
    set (n1 := blen T - M' / 2).
    assert (Hn1 : n1 < blen T) by (apply (bucket_index_grow 0 _ _ Hpow)).
    assert (HG : forall h, bucket_index h (blen T + 1) M' = blen T /\
                             bucket_index h (blen T) (cs_modulus st) = n1 \/
                           bucket_index h (blen T + 1) M' = bucket_index h (blen T) (cs_modulus st))
      by (intros h; apply (bucket_index_grow h _ _ Hpow)).
    destruct (load_ok T _ _ w n1 (wst_key _ _ _ Cw) Cc Hn1) as (b1 & c0' & c1' & Hl & R1 & Hc' & Hne).
    rewrite (run_ebind_ok _ _ _ _ _ Hl).
    set (all := filter (mine (blen T) (cs_modulus st) n1) E).
    assert (I1 : bucket_inv bs (placed recs) (fst (nthN T n1 b0), snd (nthN T n1 b0)) all).
    { rewrite <- surjective_pairing. apply (ti_b _ _ _ _ _ Ct); auto. }
    destruct (split_ok e kh Hcap Hbs Hkc hdr w0 Z base Hhdr HZ (blen T) (blen T + 1) M' _ _ _ _ _ _ _ Cw R1 I1)
      as (news & w' & r & Hr & S1 & L1 & Hpost).
    exists news, w'.
    assert (Hlen : blen news <= blen E).
    { pose proof (filter_blen (mine (blen T) (cs_modulus st) n1) E). unfold all in L1. lia. }
    destruct r as [[[b1' b2'] bw']|er].
    + destruct Hpost as (es1 & sp1 & es2 & sp2 & Hw' & R1' & I1' & R2' & I2').
      eexists. split; [erewrite run_ebind_ok by exact Hr; reflexivity|]. splits; auto.
      exists (setN T n1 (es1, sp1) ++ [(es2, sp2)]). cbn [cs_w cs_modulus cs_buckets cs_c0 cs_c1 cs_frac].
      assert (HTl : blen (setN T n1 (es1, sp1) ++ [(es2, sp2)]) = blen T + 1).
      { rewrite blen_app, blen_setN, blen_cons, blen_nil by auto. lia. }
      split; [|rewrite HTl; lia].
      constructor; cbn [cs_w cs_modulus cs_buckets cs_c0 cs_c1 cs_frac]; auto; try lia.
      * constructor; rewrite HTl; auto. intros n Hn.
        destruct (N.eq_dec n (blen T)) as [->|Hne1].
        { rewrite nthN_app_r by (rewrite blen_setN by auto; lia). rewrite blen_setN by auto.
          rewrite N.sub_diag, nthN_0. eapply bucket_inv_perm; [|exact I2'].
          unfold all. rewrite filter_filter. rewrite (filter_ext_in' _ (mine (blen T + 1) M' (blen T))); auto.
          intros x. unfold mine. destruct (HG (en_hash x)) as [[G1 G2]|G].
          - rewrite G1, G2. rewrite !N.eqb_refl. auto.
          - rewrite G. pose proof (bucket_index_lt (en_hash x) _ _ Hpow).
            replace (bucket_index (en_hash x) (blen T) (cs_modulus st) =? blen T) with false by lia.
            apply andb_false_r. }
        rewrite nthN_app_l by (rewrite blen_setN by auto; lia).
        destruct (N.eq_dec n n1) as [->|Hne2].
        { rewrite nthN_setN_same by auto. eapply bucket_inv_perm; [|exact I1'].
          unfold all. rewrite filter_filter. rewrite (filter_ext_in' _ (mine (blen T + 1) M' n1)); auto.
          intros x. unfold mine. destruct (HG (en_hash x)) as [[G1 G2]|G].
          - rewrite G1, G2. rewrite !N.eqb_refl.
            replace (blen T =? n1) with false by lia. auto.
          - rewrite G. pose proof (bucket_index_lt (en_hash x) _ _ Hpow).
            replace (bucket_index (en_hash x) (blen T) (cs_modulus st) =? blen T) with false by lia.
            apply andb_true_r. }
        rewrite nthN_setN_other by auto.
        eapply bucket_inv_incl; [apply placed_incl|].
        eapply bucket_inv_perm; [|apply (ti_b _ _ _ _ _ Ct); lia].
        rewrite (filter_ext_in' _ (mine (blen T + 1) M' n)); auto.
        intros x. unfold mine. destruct (HG (en_hash x)) as [[G1 G2]|G].
        -- rewrite G1, G2. replace (blen T =? n) with false by lia.
           replace (n1 =? n) with false by lia. auto.
        -- rewrite G. auto.
      * replace (cache_set (cache_set c1' n1 (bk_blob b1')) (blen T) (bk_blob b2')) with
          (cache_set (cache_set c1' n1 (bk_blob b1')) (blen (setN T n1 (es1, sp1))) (bk_blob b2'))
          by (rewrite blen_setN; auto).
        apply cinv_grow; [|apply rep_reblob; auto].
        apply cinv_set; auto. apply rep_reblob; auto.
    + destruct Hpost as [-> Hbig]. exists (Er EAssert).
      split; [erewrite run_ebind_er by exact Hr; reflexivity|]. auto.
  - exists [], w. eexists; split; [reflexivity|]. rewrite app_nil_r.
    splits; [constructor|rewrite blen_nil; lia|].
    exists T. cbn [cs_frac]. split; [|lia]. constructor; auto.
Qed.

(** The entry of an element of the batch. *)
Definition pelem_entry (xo : pelem * N) : entry :=
  Entry (snd xo) (blen (pe_data (fst xo))) (pe_hash (fst xo)).

Lemma commit_insert_ok recs T E st w x off :
  cst recs T E st w ->
  blen (pe_data x) < 4294967296 -> pe_hash x < 281474976710656 ->
  off <= dat_hdr_size + blen (enc_recs recs) ->
  exists news w' r, run (commit_insert e kh thresh (x, off) st) w = (w', r) /\ spills_only news /\
    blen news <= blen E + 1 /\
    match r with
    | Er er => er = EAssert /\ too_big Z w' (recs ++ news)
    | Ok st' => exists T', cst (recs ++ news) T' (pelem_entry (x, off) :: E) st' w' /\
        cs_frac st' + thresh * blen T' = cs_frac st + 65536 + thresh * blen T /\
        entry_ok (pelem_entry (x, off))
    end.
Proof.
  intros Hc Hsz Hh Hoff. unfold commit_insert.
  destruct (commit_split_ok _ _ _ _ _ Hc) as (news & w1 & r & Hr & S1 & L1 & Hpost).
  destruct r as [st1|er].
  2: { destruct Hpost as [-> Hbig]. exists news, w1, (Er EAssert).
       split; [erewrite run_ebind_er by exact Hr; reflexivity|]. splits; auto. lia. }
  destruct Hpost as (T1 & [Cw Ct Cb Cc Cf] & Hfr).
  rewrite (run_ebind_ok _ _ _ _ _ Hr). cbv beta zeta.
  pose proof (ti_pow _ _ _ _ _ Ct) as Hpow. rewrite Cb.
  set (n := bucket_index (pe_hash x) (blen T1) (cs_modulus st1)).
  assert (Hn : n < blen T1) by (apply bucket_index_lt; auto).
  destruct (load_ok T1 _ _ w1 n (wst_key _ _ _ Cw) Cc Hn) as (b & c0' & c1' & Hl & R & Hc' & Hne).
  rewrite (run_ebind_ok _ _ _ _ _ Hl).
  assert (I1 : bucket_inv bs (placed (recs ++ news)) (fst (nthN T1 n b0), snd (nthN T1 n b0))
                 (filter (mine (blen T1) (cs_modulus st1) n) E)).
  { rewrite <- surjective_pairing. apply (ti_b _ _ _ _ _ Ct); auto. }
  set (en := pelem_entry (x, off)).
  destruct (add_run kh Hcap Hbs Hkc hdr w0 Z base Hhdr HZ
    (fun b3 w2 => pret (CState c0' (cache_set c1' n (bk_blob b3)) (blen T1) (cs_modulus st1) (cs_frac st1) w2))
    _ _ _ _ _ _ _ en Cw R I1) as (news2 & w2 & S2 & L2 & Hcase); auto.
  { right. simpl. rewrite enc_recs_app, blen_app. lia. }
  exists (news ++ news2), w2.
  assert (Hspl : spills_only (news ++ news2)) by (apply spills_only_app; auto).
  assert (Hlen : blen (news ++ news2) <= blen E + 1) by (rewrite blen_app; lia).
  destruct Hcase as [[Hrun Hbig]|(b' & bw' & es' & sp' & Hrun & Hw' & R' & I' & Hok)].
  - eexists; split; [exact Hrun|]. splits; auto. rewrite app_assoc. auto.
  - eexists; split; [exact Hrun|]. splits; auto.
    exists (setN T1 n (es', sp')). cbn [cs_w cs_modulus cs_buckets cs_c0 cs_c1 cs_frac].
    rewrite blen_setN by auto. splits; auto.
    rewrite app_assoc.
    constructor; cbn [cs_w cs_modulus cs_buckets cs_c0 cs_c1 cs_frac]; rewrite ?blen_setN by auto; auto.
    + constructor; rewrite blen_setN by auto; auto. intros m Hm. cbn [filter].
      unfold mine at 1. change (en_hash en) with (pe_hash x). fold n.
      destruct (N.eqb_spec n m) as [<-|Hnm].
      * rewrite nthN_setN_same by auto. auto.
      * rewrite nthN_setN_other by auto.
        eapply bucket_inv_incl; [apply placed_incl|]. apply (ti_b _ _ _ _ _ Ct); auto.
    + apply cinv_set; auto. apply rep_reblob; auto.
Qed.

(** The whole insert loop: [budget] bounds the spill records written. *)
Lemma commit_inserts_ok l : forall recs T E st w,
  cst recs T E st w ->
  Forall (fun xo => blen (pe_data (fst xo)) < 4294967296 /\ pe_hash (fst xo) < 281474976710656 /\
            snd xo <= dat_hdr_size + blen (enc_recs recs)) l ->
  exists news w' r, run (commit_inserts e kh thresh l st) w = (w', r) /\ spills_only news /\
    blen news <= blen l * (blen E + blen l) /\
    match r with
    | Er er => er = EAssert /\ too_big Z w' (recs ++ news)
    | Ok st' => exists T', cst (recs ++ news) T' (rev (map pelem_entry l) ++ E) st' w' /\
        cs_frac st' + thresh * blen T' = cs_frac st + 65536 * blen l + thresh * blen T /\
        Forall entry_ok (map pelem_entry l)
    end.
Proof.
  induction l as [|[x off] l IH]; intros recs T E st w Hc Hl.
  - exists [], w. eexists; split; [reflexivity|]. rewrite app_nil_r.
    splits; [constructor|rewrite blen_nil; lia|]. exists T. cbn [map rev app]. change (blen (@nil (pelem * N))) with 0.
    splits; auto. lia.
  - inversion Hl as [|? ? (A1 & A2 & A3) Hl']; subst. simpl in A1, A2, A3.
    destruct (commit_insert_ok _ _ _ _ _ x off Hc A1 A2 A3) as (news & w1 & r & Hr & S1 & L1 & Hpost).
    cbn [commit_inserts]. rewrite blen_cons.
    destruct r as [st1|er].
    + destruct Hpost as (T1 & Hc1 & Hf1 & Hok1).
      destruct (IH (recs ++ news) T1 _ st1 w1 Hc1) as (news2 & w2 & r & Hr2 & S2 & L2 & Hpost2).
      { eapply Forall_impl; [|exact Hl']. intros [y o] (B1 & B2 & B3). splits; auto.
        rewrite enc_recs_app, blen_app. lia. }
      exists (news ++ news2), w2, r. split; [erewrite run_ebind_ok by exact Hr; exact Hr2|].
      splits; [apply spills_only_app; auto| |].
      { rewrite blen_app. rewrite blen_cons in L2.
        generalize dependent (blen E). intros E1. generalize dependent (blen l). intros l1.
        generalize (blen news2), (blen news). nia. }
      rewrite app_assoc. destruct r as [st2|er]; auto.
      destruct Hpost2 as (T2 & Hc2 & Hf2 & Hok2). exists T2. splits.
      * simpl rev. rewrite <- (app_assoc (rev (map pelem_entry l))). cbn [app]. exact Hc2.
      * lia.
      * simpl. constructor; auto.
    + destruct Hpost as [-> Hbig]. exists news, w1, (Er EAssert).
      split; [erewrite run_ebind_er by exact Hr; reflexivity|]. splits; auto. nia.
Qed.

(** Writing the data records. *)
Definition rec_of (x : pelem) : drec := DRec (pe_key x) (pe_data x).

Lemma commit_records_ok l : forall recs w bw,
  wst recs w bw -> Forall (fun x => Z (6 + (blen (pe_key x) + blen (pe_data x)))) l ->
  exists w' lo bw', run (commit_records l bw) w = (w', Ok (lo, bw')) /\
    wst (recs ++ map rec_of l) w' bw' /\ map fst lo = l /\
    map (fun xo => (snd xo, rec_of (fst xo))) lo = place (dat_hdr_size + blen (enc_recs recs)) (map rec_of l).
Proof using Hhdr HZ.
  induction l as [|x l IH]; intros recs w bw Hw Hl; cbn [commit_records].
  - exists w, [], bw. splits; auto. simpl. rewrite app_nil_r. auto.
  - inversion Hl as [|? ? Hx Hl']; subst.
    destruct (wst_put_data hdr w0 Z base HZ recs w bw (pe_key x) (pe_data x) Hw) as (w1 & bw1 & Hr & Hw1).
    { cbn [rec_of enc_rec]. rewrite !blen_app, blen_wr48. exact Hx. }
    destruct (IH _ _ _ Hw1 Hl') as (w2 & lo & bw2 & Hr2 & Hw2 & Hm & Hp).
    exists w2, ((x, bw_offset bw) :: lo), bw2. splits.
    + cbv zeta. erewrite run_ebind_ok by exact Hr. erewrite run_ebind_ok by exact Hr2. reflexivity.
    + simpl map. rewrite <- app_assoc in Hw2. exact Hw2.
    + simpl. rewrite Hm. auto.
    + simpl. rewrite (wst_offset hdr w0 Z base Hhdr _ _ _ Hw). f_equal.
      rewrite Hp, enc_recs_app, blen_app. f_equal. unfold enc_recs at 2. simpl. rewrite app_nil_r. clear. lia.
Qed.
End Commit.
