(** Cut off, joined and extended data files. *)
From Verif Require Import Model.Bytes Model.Err Model.Field Model.Format Model.IO Model.BulkIO
  Model.Bucket Model.Pool Model.Recover Model.Create Model.Store Model.History Model.Visit Model.Crash Model.Events
  Model.Rekey Model.RekeyLife
  Spec SpecFormat SpecHeader SpecVisit SpecVisitAny SpecSalvage Proofs.BytesFacts Proofs.FormatFacts Proofs.IOFacts Proofs.SafeFacts Proofs.CrashFacts
  Proofs.PoolFacts Proofs.BucketFacts Proofs.BulkFacts Proofs.HashFacts Proofs.Table Proofs.Lookup Proofs.SplitFacts Proofs.CommitFacts
  Proofs.CommitInv Proofs.CommitRun Proofs.StoreInv Proofs.OpenFacts Proofs.HistoryFacts
  Proofs.LifeFacts Proofs.DiskFacts Proofs.RefuseFacts Proofs.VisitFacts Proofs.VisitAny Proofs.WrittenFacts
  Proofs.RekeyFacts Proofs.RekeyRun Proofs.RekeyHist Proofs.WholeFacts Proofs.BesideFacts Proofs.BackupFacts.
Opaque loop.

Lemma serves_prefix e p r recs x : dbp_ok p -> good_rekey r ->
  Forall (drec_ok p) (recs ++ x) -> NoDup (map fst (kvs (recs ++ x))) -> Forall entry_ok (dents e p (recs ++ x)) ->
  low 0 (recs ++ x) -> serves e r (db_hdr p ++ enc_recs recs) (db_key_size p) (kvs recs).
Proof.
  intros Hp Hg Hr Hn He Hl.
  destruct (rekey_prefix e p r recs x Hp Hg Hr Hn He Hl) as [(w1 & t & w2 & s2 & X1 & X2 & X3)|X]; [left|right; exact X].
  apply Forall_app in Hr as [Hr _]. rewrite kvs_app, map_app in Hn. apply NoDup_app_left in Hn.
  exists w1, t, w2, s2. split; [exact X1|]. split; [exact X2|]. split.
  - intros k v Hin. rewrite (X3 k (kvs_key_len p recs k v Hr Hin)). apply (kfind_In _ _ _ Hn) in Hin. rewrite Hin. reflexivity.
  - intros k Hk Hin. rewrite (X3 k Hk). apply kfind_none in Hin. rewrite Hin. reflexivity.
Qed.

Lemma NoDup_join {A} (a b : list A) : NoDup a -> NoDup b -> (forall x, In x a -> ~ In x b) -> NoDup (a ++ b).
Proof.
  induction 1 as [|x a Hx Ha IH]; intros Hb Hd; [exact Hb|]. cbn [app]. constructor.
  - rewrite in_app_iff. intros [H|H]; [auto|]. apply (Hd x); [left; reflexivity|exact H].
  - apply IH; [exact Hb|]. intros y Hy. apply Hd. right. exact Hy.
Qed.

Lemma place_rec o l o' x : In (o', x) (place o l) -> In x l.
Proof.
  revert o. induction l as [|y l IH]; intros o H; [destruct H|]. cbn [place] in H. destruct H as [H|H].
  - left. congruence.
  - right. exact (IH _ H).
Qed.

(** ** Cut off *)
Lemma cut_serves e a l w s d n r : iter_ok e -> good_args a -> Forall (valid_op (ca_key_size a)) l -> lived e a l w s ->
  w_dat w = Some d -> 92 <= n -> good_rekey r ->
  forall recs rest, parsed (ca_key_size a) (bdrop 92 (btake n d)) recs rest ->
  exists later, written sempty [] [] l = values recs ++ later /\
    serves e r (btake (92 + blen (flat_map image recs)) d) (ca_key_size a) (values recs).
Proof.
  intros Hit Ha Hv Hl Hd Hn Hg recs rest (E & Hok & _). destruct (good_args_ok a Ha) as (Hp & _).
  destruct (lived_written e a l w s Ha Hit Hv Hl) as (rs & T & i & b & Hi & _ & Hk).
  pose proof (si_disk _ _ _ _ _ _ Hi) as Dk. set (p := dbp_of a) in *.
  change (ca_key_size a) with (db_key_size p) in *.
  assert (R : Forall (record_ok (db_key_size p)) (map rec_spec rs)) by (eapply rec_spec_ok; [apply p_bs; eauto|apply Dk]).
  pose proof (dk_dat _ _ _ _ _ Dk) as D. change (wget w FDat) with (w_dat w) in D.
  assert (d = db_hdr p ++ enc_recs rs) by congruence. subst d. clear D.
  assert (Hh : blen (db_hdr p) = 92) by apply p_hdr.
  assert (E1 : enc_recs rs = flat_map image recs ++ (rest ++ bdrop (n - 92) (enc_recs rs))).
  { rewrite app_assoc, <- E. transitivity (btake (n - 92) (enc_recs rs) ++ bdrop (n - 92) (enc_recs rs)); [apply take_drop|]. f_equal.
    rewrite btake_app_r by lia. rewrite Hh, bdrop_app_eq by (symmetry; exact Hh). reflexivity. }
  rewrite enc_recs_images in E1. destruct (images_prefix (db_key_size p) recs _ _ Hok R E1) as (l2 & E2 & _).
  apply map_eq_app in E2 as (r1 & r2 & -> & M1 & M2).
  assert (V1 : values recs = kvs r1) by (rewrite <- M1; apply values_kvs).
  assert (I1 : flat_map image recs = enc_recs r1) by (rewrite enc_recs_images, M1; reflexivity).
  exists (kvs r2). rewrite V1, I1. split; [rewrite <- Hk; apply kvs_app|].
  replace (btake (92 + blen (enc_recs r1)) (db_hdr p ++ enc_recs (r1 ++ r2))) with (db_hdr p ++ enc_recs r1).
  2: { rewrite enc_recs_app, app_assoc. symmetry. apply btake_app_eq. rewrite blen_app, Hh. reflexivity. }
  apply (serves_prefix e p r r1 r2 Hp Hg); apply Dk.
Qed.

(** ** More records *)
Definition mixed (p : dbp) : dbp :=
  DbP (db_uid p) (db_appnum p) (db_key_size p) (db_salt p) (db_block_size p) (db_load_factor p) true (db_base p).

Lemma drec_mixed p p2 x : dbp_ok p2 -> db_key_size p2 = db_key_size p -> drec_ok p2 x -> drec_ok (mixed p) x.
Proof.
  intros Hp2 Hk H. destruct x as [k v|es sp].
  - left. destruct H as [H|(_ & [])]. cbn [rec_ok] in *. cbn [mixed db_key_size]. rewrite <- Hk. exact H.
  - right. split; [reflexivity|]. destruct H as [(A & B & C)|(_ & H)]; [|exact H].
    split; [exact A|]. split; [|exact C]. rewrite B. pose proof (p_bs p2 Hp2) as Hb.
    unfold bucket_capacity. destruct ((_ <? _) || _); [lia|]. apply N.lt_succ_r. apply N.div_lt_upper_bound; lia.
Qed.

Lemma small_ents e p recs : Forall (drec_ok p) recs -> 92 + blen (enc_recs recs) < 281474976710656 ->
  Forall entry_ok (dents e p recs) /\ low 0 recs.
Proof.
  intros Hr Hs. split.
  - apply Forall_forall. intros en Hin. unfold dents in Hin. apply in_map_iff in Hin as ([[o k] v] & <- & Hin).
    assert (Hp : In (o, DRec k v) (placed recs)) by (apply datas_In; exact Hin).
    destruct (place_In _ _ _ _ Hp) as (_ & Ho & _). unfold dat_hdr_size in Ho.
    rewrite Forall_forall in Hr. assert (Hk : drec_ok p (DRec k v)) by (apply Hr; eapply place_rec; eauto).
    destruct Hk as [(_ & H1 & H2)|(_ & [])]. unfold entry_ok, entry_of. cbn [en_off en_size en_hash].
    pose proof (enc_rec_len (DRec k v)). split; [lia|]. split; [exact H2|apply hash_lt].
  - intros o es sp Hin _. destruct (place_In _ _ _ _ Hin) as (_ & Ho & _). unfold dat_hdr_size in Ho.
    pose proof (enc_rec_len (SRec es sp)). lia.
Qed.

Lemma serves_more e p r rs x : dbp_ok p -> good_rekey r -> Forall (drec_ok (mixed p)) (rs ++ x) ->
  NoDup (map fst (kvs (rs ++ x))) -> blen (db_hdr p ++ enc_recs (rs ++ x)) < 2 ^ 48 ->
  serves e r (db_hdr p ++ enc_recs (rs ++ x)) (db_key_size p) (kvs (rs ++ x)).
Proof.
  intros Hp Hg Hr Hn Hs. rewrite blen_app in Hs. replace (blen (db_hdr p)) with 92 in Hs by (symmetry; apply p_hdr).
  change (2 ^ 48) with 281474976710656 in Hs. destruct (small_ents e (mixed p) _ Hr Hs) as [He Hl].
  pose proof (serves_prefix e (mixed p) r (rs ++ x) [] Hp Hg) as S. rewrite app_nil_r in S. exact (S Hr Hn He Hl).
Qed.

(** Two data files joined. *)
Lemma joined_serves e e1 e2 a1 a2 l1 l2 w1 w2 s1 s2 d1 d2 r : iter_ok e1 -> iter_ok e2 -> good_args a1 -> good_args a2 ->
  Forall (valid_op (ca_key_size a1)) l1 -> Forall (valid_op (ca_key_size a2)) l2 ->
  lived e1 a1 l1 w1 s1 -> lived e2 a2 l2 w2 s2 -> w_dat w1 = Some d1 -> w_dat w2 = Some d2 ->
  ca_key_size a1 = ca_key_size a2 -> good_rekey r ->
  let W1 := written sempty [] [] l1 in let W2 := written sempty [] [] l2 in
  (forall k, In k (map fst W1) -> ~ In k (map fst W2)) ->
  blen (d1 ++ bdrop 92 d2) < 2 ^ 48 ->
  serves e r (d1 ++ bdrop 92 d2) (ca_key_size a1) (W1 ++ W2).
Proof.
  intros Hi1 Hi2 Ha1 Ha2 Hv1 Hv2 Hl1 Hl2 Hd1 Hd2 Hks Hg W1 W2 Hdis Hs.
  destruct (good_args_ok a1 Ha1) as (Hp1 & _). destruct (good_args_ok a2 Ha2) as (Hp2 & _).
  destruct (lived_written e1 a1 l1 w1 s1 Ha1 Hi1 Hv1 Hl1) as (rs1 & T1 & i1 & b1 & I1 & _ & K1).
  destruct (lived_written e2 a2 l2 w2 s2 Ha2 Hi2 Hv2 Hl2) as (rs2 & T2 & i2 & b2 & I2 & _ & K2).
  pose proof (si_disk _ _ _ _ _ _ I1) as D1. pose proof (si_disk _ _ _ _ _ _ I2) as D2.
  pose proof (dk_dat _ _ _ _ _ D1) as E1. change (wget w1 FDat) with (w_dat w1) in E1.
  pose proof (dk_dat _ _ _ _ _ D2) as E2. change (wget w2 FDat) with (w_dat w2) in E2.
  assert (d1 = db_hdr (dbp_of a1) ++ enc_recs rs1) by congruence. subst d1.
  assert (d2 = db_hdr (dbp_of a2) ++ enc_recs rs2) by congruence. subst d2.
  rewrite (bdrop_app_eq 92) in * by (symmetry; apply p_hdr).
  rewrite <- app_assoc, <- enc_recs_app in *. unfold W1, W2 in *. rewrite <- K1, <- K2, <- kvs_app in *.
  apply (serves_more e (dbp_of a1) r rs1 rs2 Hp1 Hg).
  - apply Forall_app. split.
    + eapply Forall_impl; [|apply (dk_recs _ _ _ _ _ D1)]. intros x. apply (drec_mixed _ _ x Hp1 eq_refl).
    + eapply Forall_impl; [|apply (dk_recs _ _ _ _ _ D2)]. intros x. apply (drec_mixed _ _ x Hp2). symmetry. exact Hks.
  - rewrite kvs_app, map_app. apply NoDup_join; [apply (dk_nd _ _ _ _ _ D1)|apply (dk_nd _ _ _ _ _ D2)|exact Hdis].
  - exact Hs.
Qed.

(** Values added by another program. *)
Lemma extended_serves e e1 a l w s d r more : iter_ok e1 -> good_args a -> Forall (valid_op (ca_key_size a)) l ->
  lived e1 a l w s -> w_dat w = Some d -> good_rekey r ->
  let W := written sempty [] [] l in
  Forall (well_sized (ca_key_size a)) more -> NoDup (map fst more) ->
  (forall k, In k (map fst W) -> ~ In k (map fst more)) ->
  let d' := d ++ flat_map (fun kv => be 6 (blen (snd kv)) ++ fst kv ++ snd kv) more in
  blen d' < 2 ^ 48 -> serves e r d' (ca_key_size a) (W ++ more).
Proof.
  intros Hi1 Ha Hv Hl Hd Hg W Hm Hnd Hdis d' Hs. destruct (good_args_ok a Ha) as (Hp & _).
  destruct (lived_written e1 a l w s Ha Hi1 Hv Hl) as (rs & T & i & b & I1 & _ & K1).
  pose proof (si_disk _ _ _ _ _ _ I1) as D1.
  pose proof (dk_dat _ _ _ _ _ D1) as E1. change (wget w FDat) with (w_dat w) in E1.
  assert (d = db_hdr (dbp_of a) ++ enc_recs rs) by congruence. subst d.
  set (x := map (fun kv : bytes * bytes => DRec (fst kv) (snd kv)) more).
  assert (Ex : flat_map (fun kv => be 6 (blen (snd kv)) ++ fst kv ++ snd kv) more = enc_recs x).
  { unfold x. clear. induction more as [|kv more IH]; [reflexivity|]. cbn [map flat_map].
    change (enc_recs (?r :: ?l)) with (enc_rec r ++ enc_recs l). cbn [enc_rec]. rewrite wr48_be, IH. reflexivity. }
  assert (Kx : kvs x = more).
  { unfold x. clear. induction more as [|[k v] more IH]; [reflexivity|]. cbn [map kvs fst snd]. rewrite IH. reflexivity. }
  unfold d' in *. rewrite Ex in *. rewrite <- app_assoc, <- enc_recs_app in *.
  unfold W in *. rewrite <- K1 in *. rewrite <- Kx in Hdis, Hnd |- *. rewrite <- kvs_app.
  apply (serves_more e (dbp_of a) r rs x Hp Hg).
  - apply Forall_app. split.
    + eapply Forall_impl; [|apply (dk_recs _ _ _ _ _ D1)]. intros y. apply (drec_mixed _ _ y Hp eq_refl).
    + unfold x. apply Forall_map. eapply Forall_impl; [|exact Hm]. intros [k v] [H1 H2]. left. cbn [fst snd rec_ok] in *.
      change (2 ^ 32) with 4294967296 in H2. split; [exact H1|exact H2].
  - rewrite kvs_app, map_app. apply NoDup_join; [apply (dk_nd _ _ _ _ _ D1)|exact Hnd|exact Hdis].
  - exact Hs.
Qed.

(** ** Where to cut *)
Lemma last_progress cb total : forall l off t t', spec_visit cb total off t l = (t', None) -> l <> [] ->
  exists u, t' = u ++ [VProgress (off + blen (flat_map image l)) total].
Proof.
  induction l as [|x l IH]; intros off t t' H Hn; [congruence|]. clear Hn.
  assert (G : forall t1, spec_visit cb total (off + blen (image x)) (t1 ++ [VProgress (off + blen (image x)) total]) l = (t', None) ->
    exists u, t' = u ++ [VProgress (off + blen (flat_map image (x :: l))) total]).
  { intros t1 H1. cbn [flat_map]. rewrite blen_app. destruct l as [|y l].
    - cbn [spec_visit] in H1. exists t1. assert (E : t' = t1 ++ [VProgress (off + blen (image x)) total]) by congruence.
      rewrite E. cbn [flat_map]. rewrite blen_nil, N.add_0_r. reflexivity.
    - destruct (IH _ _ _ H1) as (u & ->); [discriminate|]. exists u. rewrite N.add_assoc. reflexivity. }
  destruct x as [k v|c]; cbn [spec_visit] in H.
  - destruct (cb t k v); [congruence|]. apply (G (t ++ [VItem k v])). rewrite <- app_assoc. exact H.
  - apply (G t). exact H.
Qed.
