(** The count of fetches that verify() makes on a well-formed database. *)
From Verif Require Import Model.Bytes Model.Err Model.Field Model.Format Model.IO
  Model.BulkIO Model.Bucket Model.Pool Model.Recover Model.Create Model.Store Model.History Model.Visit
  Model.Verify Model.VerifyProgress Model.VerifyFetch Model.Events
  Proofs.BytesFacts Proofs.FieldFacts Proofs.IOFacts Proofs.PoolFacts Proofs.BucketFacts
  Proofs.BulkFacts Proofs.HashFacts Proofs.Table Proofs.Lookup Proofs.SplitFacts
  Proofs.CommitFacts Proofs.CommitInv Proofs.CommitRun Proofs.HeaderFacts Proofs.StoreInv
  Proofs.OpenFacts Proofs.RecoverFacts Proofs.LifeFacts Proofs.EventFacts
  Proofs.FormatFacts Proofs.RefuseFacts Proofs.VisitFacts Proofs.WrittenFacts Proofs.VerifyFacts Proofs.VerifyFast
  Proofs.VerifyTheorems Proofs.VerifyFetchFacts
  Spec SpecFormat SpecHeader SpecVisit SpecVerify SpecFetch.
From Verif Require Proofs.VerifyFetchSim.
Opaque loop.

Lemma place_key_uniq l : forall b k o v o' v', NoDup (map fst (kvs l)) ->
  In (o, DRec k v) (place b l) -> In (o', DRec k v') (place b l) -> o = o'.
Proof.
  assert (K : forall l b o k v, In (o, DRec k v) (place b l) -> In k (map fst (kvs l))).
  { clear l. induction l as [|[k0 v0|es sp] l IH]; intros b o k v Hin; cbn [place kvs map] in *; [destruct Hin| |].
    - destruct Hin as [E|Hin]; [injection E; intros; subst; left; reflexivity|right; eauto].
    - destruct Hin as [E|Hin]; [discriminate E|eauto]. }
  induction l as [|[k0 v0|es sp] l IH]; intros b k o v o' v' Hn H1 H2; cbn [place kvs map] in *; [destruct H1| |].
  - inversion Hn as [|x y Hn1 Hn2]; subst. cbn [fst] in Hn1.
    destruct H1 as [E1|H1], H2 as [E2|H2].
    + congruence.
    + injection E1; intros; subst. exfalso. apply Hn1. eauto.
    + injection E2; intros; subst. exfalso. apply Hn1. eauto.
    + eauto.
  - destruct H1 as [E1|H1]; [discriminate E1|]. destruct H2 as [E2|H2]; [discriminate E2|]. eauto.
Qed.

Section Db.
Variables (e : env) (p : dbp) (recs : list drec) (T : list bent) (w : world).
Hypothesis Hp : dbp_ok p.
Hypothesis Hum : unmixed p.
Hypothesis Hd : disk e p recs T w.
Hypothesis Hf : files_fit w.
Notation bs := (db_block_size p).
Notation ks := (db_key_size p).
Notation B := (blen T).
Notation M := (ceil_pow2 (blen T)).
Notation kh := (db_kh e p (blen T)).
Notation H := (e_hasher e).
Notation d := (db_hdr p ++ enc_recs recs).
Notation cap := (bucket_capacity bs).
Notation P := (placed recs).
Notation E := (dents e p recs).
Notation nmine := (nmine e p recs T).
Notation v2 := (v2 e p recs T).
Notation idx := (idx e p T).
Notation sel := (sel e p T).
Notation finv := (finv e p recs T).
Notation pbuf := (pbuf e p T).
Notation vbase := (vbase e p recs T).

(** The store opened on the files. *)
Notation w1 := (wset w FLog (Some [])).
Notation s1 := (Store (db_kh e p (blen T)) pool_empty pool_empty [] (db_thresh p / 2) (db_thresh p)
             (blen T) (ceil_pow2 (blen T)) None).
Definition cost (k : bytes) : N := nreads (store_fetch e s1 k) w1.

Lemma find_count k v o b es sp ces f :
  In (o, DRec k v) P -> blen k = ks -> nthN T (idx k) b0 = (es, sp) -> bk_rep bs b es sp -> ents_ok es ->
  chain bs P sp ces -> Permutation (es ++ ces) (filter (mine B M (idx k)) E) ->
  exists c, run (vfindc e bs (hash H (db_salt p) k) o b f) w = (w, Ok (f + c)) /\ cost k = c + 2.
Proof using Hp Hum Hd.
  intros Hin Hk Hn Hb Hes Hch Hperm.
  pose proof (disk_wlog e p recs T w (Some []) Hd) as Hd1.
  pose proof (idx_lt e p recs T w Hp Hum Hd k) as Hi.
  destruct (bucket_at e p recs T w1 Hp Hum Hd1 (idx k) Hi) as (b' & es' & sp' & ces' & Hr & Hn' & R' & _).
  assert (Q : (es', sp') = (es, sp)) by congruence. injection Q as -> ->.
  destruct (disk_holds e p recs T w Hd) as [Hho Hfu].
  destruct (find_cost e kh (p_cap p Hp) (p_bs p Hp) w w1 d P (dk_dat _ _ _ _ _ Hd) (dk_dat _ _ _ _ _ Hd1) Hho Hfu
    k v o (hash H (db_salt p) k) Hin) with (b := b) (b' := b') (es := es) (sp := sp) (ces := ces) (f := f)
    as (c & X & Y); auto.
  - intros o' v' Hin'. eapply (place_key_uniq recs); [apply (dk_nd _ _ _ _ _ Hd)|exact Hin'|exact Hin].
  - eapply Permutation_Forall; [symmetry; exact Hperm|]. eapply mine_linked; eauto.
  - exists (Entry o (blen v) (hash H (db_salt p) k)). split; [|split; reflexivity].
    eapply Permutation_in; [symmetry; exact Hperm|]. apply filter_In. split.
    + unfold dents. apply in_map_iff. exists (o, k, v). split; [reflexivity|]. apply datas_In. exact Hin.
    + unfold mine. cbn [en_hash]. apply N.eqb_eq. reflexivity.
  - exists c. split; [exact X|]. unfold cost, store_fetch. cbv zeta.
    cbn [st_ec st_kh st_p0 st_p1 st_c1 st_buckets st_modulus]. change (pool_find pool_empty k) with (@None pelem). cbv iota.
    cbn [cache_find]. cbn [db_kh kh_salt kh_block_size]. fold (idx k).
    change (bucket_index (hash H (db_salt p) k) B M) with (idx k).
    rewrite (nreads_ebind_ok _ _ _ _ _ Hr), nreads_bk_read.
    change (kh_block_size kh) with bs in Y.
    rewrite Y. lia.
Qed.

(** Reading a data record. *)
Lemma data_at pre k v rest rd :
  recs = pre ++ DRec k v :: rest -> at_off d rd (blen (db_hdr p) + blen (enc_recs pre)) ->
  let o := blen (db_hdr p) + blen (enc_recs pre) in
  br_eof rd = false /\ br_offset rd = o /\ In (o, DRec k v) P /\ blen k = ks /\ 0 < blen v < 4294967296 /\
  exists r1 r2, run (br_prepare rd 6) w = (w, Ok (wr48 (blen v), r1)) /\
    run (br_prepare r1 (ks + blen v)) w = (w, Ok (k ++ v, r2)).
Proof using Hp Hum Hd.
  intros Hrec Hr o. pose proof (dk_dat _ _ _ _ _ Hd) as Wd. fold o in Hr.
  destruct (recs_rec_ok e p recs T w Hum Hd (DRec k v)) as (Hkl & Hv1 & Hv2); [rewrite Hrec; apply in_app_iff; simpl; auto|].
  pose proof (mid_d p recs _ _ _ Hrec) as Ed.
  assert (Lo : blen (db_hdr p ++ enc_recs pre) = o) by (unfold o; apply blen_app).
  cbn [enc_rec] in *.
  assert (L6 : blen (wr48 (blen v)) = 6) by apply blen_wr48.
  assert (Ld : blen d = o + 6 + blen k + blen v + blen (enc_recs rest)).
  { rewrite Ed, !blen_app, L6. unfold o. lia. }
  rewrite (at_eof _ w Wd _ _ Hr). replace (blen d <=? o) with false by lia. split; [reflexivity|].
  destruct (at_prepare d w Wd rd o 6 Hr) as (r1 & Hr1 & Ha1); [lia|].
  assert (E6 : bsub o 6 d = wr48 (blen v)).
  { rewrite Ed. rewrite <- (app_assoc (wr48 _)). apply bsub_app_eq; auto. }
  destruct (at_prepare d w Wd r1 (o + 6) (ks + blen v) Ha1) as (r2 & Hr2 & Ha2); [lia|].
  assert (EK : bsub (o + 6) (ks + blen v) d = k ++ v).
  { assert (Ed2 : d = ((db_hdr p ++ enc_recs pre) ++ wr48 (blen v)) ++ (k ++ v) ++ enc_recs rest)
      by (rewrite Ed, <- !app_assoc; reflexivity).
    rewrite Ed2. apply bsub_app_eq; rewrite blen_app; lia. }
  split; [apply Hr|]. split; [rewrite Hrec; unfold o; rewrite (p_hdr p); apply placed_mid|].
  split; [exact Hkl|]. split; [split; lia|]. exists r1, r2. rewrite Hr1, Hr2, E6, EK. split; reflexivity.
Qed.

(** ** verify_normal *)
Lemma vnf_data pre k v rest rd v0 f x f' r' :
  recs = pre ++ DRec k v :: rest -> at_off d rd (blen (db_hdr p) + blen (enc_recs pre)) ->
  run (vnf_record e kh (v0, f, rd)) w = (w, inl (x, f', r')) -> f' + 1 = f + cost k.
Proof using Hp Hum Hd.
  intros Hrec Hr Hrun.
  destruct (data_at _ _ _ _ _ Hrec Hr) as (Heof & Hoff & Hin & Hk & Hv & r1 & r2 & Hr1 & Hr2).
  set (o := blen (db_hdr p) + blen (enc_recs pre)) in *.
  destruct (bucket_at e p recs T w Hp Hum Hd (idx k) (idx_lt e p recs T w Hp Hum Hd k))
    as (b & es & sp & ces & Hb & Hn & R & O & Hch & Hperm).
  destruct (find_count k v o b es sp ces (f + 1) Hin Hk Hn R O Hch Hperm) as (c & Hc & Hco).
  unfold vnf_record in Hrun. rewrite Heof, Hoff in Hrun. rewrite run_bind, Hr1 in Hrun. cbv beta iota zeta in Hrun.
  rewrite rd_size48_wr48 in Hrun by lia. replace (0 <? blen v) with true in Hrun by lia.
  cbn [db_kh kh_key_size] in Hrun. rewrite run_bind, Hr2 in Hrun. cbv beta iota zeta in Hrun.
  rewrite btake_app_eq in Hrun by lia. cbn [db_kh kh_salt kh_buckets kh_modulus kh_block_size] in Hrun.
  change (bucket_index (hash H (db_salt p) k) B M) with (idx k) in Hrun.
  rewrite (run_bind_eq _ _ _ _ _ Hb) in Hrun. cbv beta iota in Hrun.
  rewrite (run_bind_eq _ _ _ _ _ Hc) in Hrun. cbv beta iota in Hrun. cbn [run] in Hrun.
  injection Hrun as _ <- _. rewrite Hco. lia.
Qed.

Definition csum (l : list drec) : N := total (map (fun x => cost (fst x)) (kvs l)).
Lemma csum_app a b : csum (a ++ b) = csum a + csum b.
Proof using. unfold csum. rewrite kvs_app, map_app, total_app. reflexivity. Qed.

Lemma vnf_scan : exists f,
  run (loop (vnf_record e kh) (vinfo0 0, 0, br_make FDat dat_hdr_size (blen d) (1024 * bs))) w = (w, Ok (v1 p 0 recs, f)) /\
  f + blen (kvs recs) = csum recs.
Proof using Hp Hum Hd Hf.
  pose proof (dk_dat _ _ _ _ _ Hd) as Wd.
  destruct (scan_records w d (db_hdr p) recs Wd eq_refl (vnf_record e kh)
    (fun pre s => fst s = v1 p 0 pre /\ snd s + blen (kvs pre) = csum pre) (fun s => s))
    with (s := (vinfo0 0, 0)) (rd := br_make FDat dat_hdr_size (blen d) (1024 * bs)) as ([v f] & Hl & Hv & Hc).
  - intros pre r rest [v0 f] rd Hrec [Hv Hc] Hr. cbn [fst snd] in Hv, Hc. subst v0. destruct r as [k v|es sp].
    + destruct (vn_record_data e p recs T w Hp Hum Hd _ _ _ _ _ Hrec Hr) as (rd' & H1 & H2).
      destruct (VerifyFetchSim.vnf_keeps e kh w _ f _ _ _ H1) as (f' & H3 & _).
      exists (v1 p 0 (pre ++ [DRec k v]), f'), rd'. split; [exact H3|]. split; [|exact H2].
      split; [reflexivity|]. cbn [snd]. pose proof (vnf_data _ _ _ _ _ _ _ _ _ _ Hrec Hr H3) as Hcc.
      rewrite csum_app, kvs_app, blen_app. unfold csum at 2. cbn [kvs map total fst]. change (blen [(k, v)]) with 1. lia.
    + destruct (vn_record_spill e p recs T w Hp Hum Hd _ _ _ _ _ Hrec Hr) as (rd' & H1 & H2).
      destruct (VerifyFetchSim.vnf_keeps e kh w _ f _ _ _ H1) as (f' & H3 & Hk).
      assert (Ef : f' = f).
      { apply Hk. unfold v1. cbn [vi_value_count]. rewrite kvs_app, blen_app. cbn [kvs]. rewrite blen_nil. lia. }
      subst f'. exists (v1 p 0 (pre ++ [SRec es sp]), f), rd'. split; [exact H3|]. split; [|exact H2].
      split; [reflexivity|]. cbn [snd]. rewrite csum_app, kvs_app, blen_app. unfold csum at 2. cbn [kvs map total].
      rewrite blen_nil. lia.
  - intros [v f] rd _ Hr. unfold vnf_record. rewrite (at_eof _ w Wd _ _ Hr), N.leb_refl. reflexivity.
  - split; reflexivity.
  - apply start_off. exact Hp.
  - cbn [fst snd] in Hv, Hc. subst v. exists f. split; [|exact Hc]. eapply loop_run; [exact Hl|].
    pose proof (recs_le recs) as X. pose proof (d_len e p recs T w Hd Hf) as Y.
    rewrite blen_app, (p_hdr p) in Y. unfold blen in *. unfold dat_hdr_size in Y. lia.
Qed.

Lemma vnf_ok : exists f, run (vnf e kh (blen d)) w =
  (w, Ok (vtrue e p recs T 0 (count is_srec recs * (8 + bucket_size cap)), f)) /\
  f + blen (kvs recs) = csum recs.
Proof using Hp Hum Hd Hf.
  destruct vnf_scan as (f & Hs & Hc). exists f. split; [|exact Hc].
  unfold vnf. cbn [db_kh kh_block_size]. cbv zeta.
  rewrite (run_ebind_ok _ _ _ _ _ Hs). cbv beta iota.
  pose proof (verify_normal_ok e p recs T w Hp Hum Hd Hf) as X. unfold verify_normal in X.
  cbn [db_kh kh_block_size] in X. cbv zeta in X.
  rewrite (run_ebind_ok _ _ _ _ _ (vn_scan e p recs T w Hp Hum Hd Hf)) in X. cbv beta in X.
  rewrite (run_ebind_ok _ _ _ _ _ X). reflexivity.
Qed.

(** ** verify_fast *)
Section Pass.
Variables (q bn : N).
Hypothesis Hq : q + bn <= B.

Definition rcost (r : drec) : N := match r with DRec k _ => cost k | SRec _ _ => 0 end.
Fixpoint csel (lo hi : N) (l : list drec) : N :=
  match l with [] => 0 | r :: l => (if sel lo hi r then rcost r else 0) + csel lo hi l end.
Lemma csel_app lo hi a b : csel lo hi (a ++ b) = csel lo hi a + csel lo hi b.
Proof using. clear Hq. induction a as [|x a IH]; cbn [app csel]; lia. Qed.

Lemma vff_data pre k v rest rd nk v0 f tmp x f' r' :
  recs = pre ++ DRec k v :: rest -> at_off d rd (blen (db_hdr p) + blen (enc_recs pre)) ->
  q <= idx k < q + bn ->
  run (vff_record e kh q (q + bn) (pbuf q bn) tmp (nk, v0, f, rd)) w = (w, inl (x, f', r')) -> f' + 1 = f + cost k.
Proof using Hp Hum Hd Hq.
  intros Hrec Hr Hi Hrun.
  destruct (data_at _ _ _ _ _ Hrec Hr) as (Heof & Hoff & Hin & Hk & Hv & r1 & r2 & Hr1 & Hr2).
  set (o := blen (db_hdr p) + blen (enc_recs pre)) in *.
  destruct (chunk_bucket e p recs T w Hp Hum Hd q bn Hq (idx k - q)) as (es & sp & ces & Hn & R & O & Hch & Hperm); [lia|].
  replace (q + (idx k - q)) with (idx k) in * by lia.
  destruct (find_count k v o _ es sp ces (f + 1) Hin Hk Hn R O Hch Hperm) as (c & Hc & Hco).
  unfold vff_record in Hrun. rewrite Heof, Hoff in Hrun. rewrite run_bind, Hr1 in Hrun. cbv beta iota zeta in Hrun.
  rewrite rd_size48_wr48 in Hrun by lia. replace (0 <? blen v) with true in Hrun by lia.
  cbn [db_kh kh_key_size] in Hrun. rewrite run_bind, Hr2 in Hrun. cbv beta iota zeta in Hrun.
  rewrite btake_app_eq in Hrun by lia. cbn [db_kh kh_salt kh_buckets kh_modulus kh_block_size] in Hrun.
  change (bucket_index (hash H (db_salt p) k) B M) with (idx k) in Hrun.
  replace (idx k <? q) with false in Hrun by lia. replace (q + bn <=? idx k) with false in Hrun by lia. cbn [orb] in Hrun.
  rewrite (run_bind_eq _ _ _ _ _ Hc) in Hrun. cbv beta iota in Hrun.
  destruct (nthN nk (idx k - q) 0 =? 0); cbn [run] in Hrun; [discriminate Hrun|].
  injection Hrun as _ <- _. rewrite Hco. lia.
Qed.

Lemma vff_step tmp va pre x rest s f rd s' rd' :
  recs = pre ++ x :: rest -> finv q bn tmp va pre s -> at_off d rd (blen (db_hdr p) + blen (enc_recs pre)) ->
  run (vf_record e kh q (q + bn) (pbuf q bn) tmp (s, rd)) w = (w, inl (s', rd')) -> finv q bn tmp va (pre ++ [x]) s' ->
  exists f', run (vff_record e kh q (q + bn) (pbuf q bn) tmp (s, f, rd)) w = (w, inl (s', f', rd')) /\
    f' + (if sel q (q + bn) x then 1 else 0) = f + (if sel q (q + bn) x then rcost x else 0).
Proof using Hp Hum Hd Hq.
  intros Hrec Hs Hr Hrun Hs'. destruct s as [nk v0], s' as [nk' v'].
  destruct (VerifyFetchSim.vff_keeps e kh w _ _ _ _ _ _ f _ _ _ _ Hrun) as (f' & H3 & Hk).
  exists f'. split; [exact H3|].
  pose proof (fi_v _ _ _ _ _ _ _ _ _ _ Hs) as V1. pose proof (fi_v _ _ _ _ _ _ _ _ _ _ Hs') as V2. cbn [snd] in V1, V2.
  destruct (sel q (q + bn) x) eqn:Es.
  - destruct x as [k v|es sp]; [|discriminate Es]. cbn [VerifyFast.sel] in Es. apply andb_prop in Es as [E1 E2].
    cbn [rcost]. eapply (vff_data pre k v rest); eauto. lia.
  - rewrite !N.add_0_r. apply Hk. subst v0 v'. unfold vacc. cbn [vi_value_count]. rewrite count_app. cbn [count].
    rewrite Es. lia.
Qed.

Lemma vff_scan tmp va f0 : (spill_size_ok p = true \/ count is_srec recs = 0) ->
  exists nk f, run (loop (vff_record e kh q (q + bn) (pbuf q bn) tmp)
      (map (fun j => nmine (q + N.of_nat j)) (seq 0 (N.to_nat bn)), va, f0, br_make FDat dat_hdr_size (blen d) (1024 * bs))) w
    = (w, Ok (nk, vacc e p T q bn recs tmp va, f)) /\ forallb (fun x => x =? 0) nk = true /\
    f + count (sel q (q + bn)) recs = f0 + csel q (q + bn) recs.
Proof using Hp Hum Hd Hf Hq.
  intros Hsp. pose proof (dk_dat _ _ _ _ _ Hd) as Wd.
  destruct (scan_records w d (db_hdr p) recs Wd eq_refl (vff_record e kh q (q + bn) (pbuf q bn) tmp)
    (fun pre s => finv q bn tmp va pre (fst s) /\ snd s + count (sel q (q + bn)) pre = f0 + csel q (q + bn) pre) (fun s => s))
    with (s := (map (fun j => nmine (q + N.of_nat j)) (seq 0 (N.to_nat bn)), va, f0))
         (rd := br_make FDat dat_hdr_size (blen d) (1024 * bs)) as ([[nk v] f] & Hl & Hv & Hc).
  - intros pre r rest [s f] rd Hrec [Hs Hc] Hr. cbn [fst snd] in Hs, Hc.
    assert (X : exists s' rd', run (vf_record e kh q (q + bn) (pbuf q bn) tmp (s, rd)) w = (w, inl (s', rd')) /\
      finv q bn tmp va (pre ++ [r]) s' /\
      at_off d rd' (blen (db_hdr p) + blen (enc_recs pre) + blen (enc_rec r))).
    { destruct r as [k v|es sp].
      - eapply vf_record_data; eauto.
      - pose proof (vf_record_spill e p recs T w Hp Hum Hd q bn Hq _ _ _ _ _ _ _ _ Hrec Hs Hr) as X. destruct (spill_size_ok p); [exact X|].
        exfalso. destruct Hsp as [Hsp|Hsp]; [discriminate|].
        rewrite Hrec, count_app in Hsp. cbn [count is_srec] in Hsp. clear - Hsp. lia. }
    destruct X as (s' & rd' & H1 & H2 & H3).
    destruct (vff_step tmp va pre r rest s f rd s' rd' Hrec Hs Hr H1 H2) as (f' & H4 & H5).
    exists (s', f'), rd'. split; [exact H4|]. split; [|exact H3]. split; [exact H2|]. cbn [snd].
    rewrite count_app, csel_app. cbn [count csel]. lia.
  - intros [[nk v] f] rd _ Hr. unfold vff_record. rewrite (at_eof _ w Wd _ _ Hr), N.leb_refl. reflexivity.
  - split; [apply finv_start|]. cbn [snd count csel]. lia.
  - apply start_off; auto.
  - cbn [fst snd] in Hv, Hc. exists nk, f. split; [|split; [exact (finv_end _ _ _ _ _ _ _ _ _ Hv)|exact Hc]].
    pose proof (fi_v _ _ _ _ _ _ _ _ _ _ Hv) as Ev. cbn [snd] in Ev. rewrite <- Ev.
    eapply loop_run; [exact Hl|]. pose proof (recs_le recs) as X.
    pose proof (d_len e p recs T w Hd Hf) as Y.
    rewrite blen_app, (p_hdr p) in Y. unfold blen in *. unfold dat_hdr_size in Y. lia.
Qed.
End Pass.

Lemma csel_split a b c l : a <= b -> b <= c -> csel a c l = csel a b l + csel b c l.
Proof using.
  intros H1 H2. induction l as [|[k v|es sp] l IH]; cbn [csel]; [reflexivity| |cbn [VerifyFast.sel]; lia].
  rewrite IH. cbn [VerifyFast.sel]. clear IH.
  destruct (N.leb_spec a (idx k)), (N.leb_spec b (idx k)), (N.ltb_spec (idx k) b), (N.ltb_spec (idx k) c);
    cbn [andb]; try lia.
Qed.
Lemma csel_none l : csel 0 0 l = 0.
Proof using.
  induction l as [|[k v|es sp] l IH]; [reflexivity| |]; cbn [csel VerifyFast.sel]; rewrite IH; [|reflexivity].
  replace (idx k <? 0) with false by lia. rewrite andb_false_r. reflexivity.
Qed.
Lemma csel_all l : csel 0 B l = csum l.
Proof using Hp Hum Hd.
  unfold csum. induction l as [|[k v|es sp] l IH]; [reflexivity| |]; cbn [csel VerifyFast.sel kvs map total];
    [|rewrite IH; lia].
  pose proof (idx_lt e p recs T w Hp Hum Hd k). replace (0 <=? idx k) with true by lia. replace (idx k <? B) with true by lia.
  cbn [andb rcost fst]. rewrite IH. lia.
Qed.

Section Chunk.
Variable chunk : N.
Hypothesis Hchunk : 0 < chunk.
Notation ptmp := (ptmp e p recs T chunk).

Lemma vff_pass_ok q tmp tot f : q < B -> (q = 0 -> tot = 0) -> (spill_size_ok p = true \/ count is_srec recs = 0) ->
  f + count (sel 0 q) recs = csel 0 q recs ->
  exists f', run (vff_pass e kh (blen d) chunk (q, tmp, v2 (N.to_nat q) (vbase q tot), f)) w =
  (w, inl (q + chunk, ptmp q tmp, v2 (N.to_nat (N.min (q + chunk) B)) (vbase (N.min (q + chunk) B)
     (if q =? 0 then count is_srec recs * (8 + bucket_size (ptmp q tmp)) else tot)), f')) /\
  f' + count (sel 0 (N.min (q + chunk) B)) recs = csel 0 (N.min (q + chunk) B) recs.
Proof using Hp Hum Hd Hf Hchunk.
  intros Hq Ht Hsp Hfc. unfold vff_pass. cbn [db_kh kh_block_size kh_buckets]. cbv zeta.
  replace (q <? B) with true by lia.
  set (bn := N.min (q + chunk) B - q). assert (Hbn : q + bn <= B) by lia. assert (H0 : 0 < bn) by lia.
  replace (N.min (q + chunk) B) with (q + bn) by lia.
  rewrite (run_bind_eq _ _ _ _ _ (read_chunk e p recs T w Hp Hum Hd q bn Hbn)). cbv beta iota.
  destruct (vf_count_ok e p recs T w Hp Hum Hd q bn Hbn (vbase q tot) (N.to_nat bn) 0 tmp eq_refl) as (tmp' & Hc & Et).
  change (N.of_nat 0) with 0 in Hc. rewrite !Nat.add_0_r in Hc.
  rewrite (run_bind_eq _ _ _ _ _ Hc). cbv beta iota.
  change tmp' with tmp' in Et. fold bn. replace (ptmp q tmp) with tmp' by (rewrite Et; unfold VerifyFast.ptmp; fold bn; reflexivity).
  destruct (vff_scan q bn Hbn tmp' (v2 (N.to_nat q + N.to_nat bn) (vbase q tot)) f Hsp) as (nk & f' & Hs & Hz & Hcc).
  exists f'. rewrite (run_bind_eq _ _ _ _ _ Hs). cbv beta iota. rewrite Hz. cbn [run].
  rewrite vacc_v2, vacc_base by auto. replace (N.to_nat q + N.to_nat bn)%nat with (N.to_nat (q + bn)) by lia. split; [reflexivity|].
  rewrite (sel_split e p T 0 q (q + bn)), (csel_split 0 q (q + bn)) by lia. lia.
Qed.

Lemma vff_passes tot : (spill_size_ok p = true \/ count is_srec recs = 0) ->
  forall k q tmp f, 0 < q -> (N.to_nat (B - q) <= k)%nat ->
  f + count (sel 0 (N.min q B)) recs = csel 0 (N.min q B) recs ->
  exists n f', (n <= k + 1)%nat /\
    loops (vff_pass e kh (blen d) chunk) n (q, tmp, v2 (N.to_nat (N.min q B)) (vbase (N.min q B) tot), f) w w
      (Ok (vtrue e p recs T 1 tot, f')) /\ f' + blen (kvs recs) = csum recs.
Proof using Hp Hum Hd Hf Hchunk.
  intros Hsp. induction k as [|k IH]; intros q tmp f H0 Hk Hfc; (destruct (N.ltb_spec q B) as [Hq|Hq];
    [|exists 1%nat, f; split; [lia|]; split; [constructor; unfold vff_pass; cbn [db_kh kh_buckets];
      replace (q <? B) with false by lia; replace (N.min q B) with B by lia; cbn [run];
      rewrite (vbase_end e p recs T w Hp Hum Hd); reflexivity
      |replace (N.min q B) with B in Hfc by lia;
       rewrite (sel_all e p recs T w Hp Hum Hd), csel_all in Hfc; exact Hfc]]).
  - lia.
  - replace (N.min q B) with q in * by lia.
    destruct (vff_pass_ok q tmp tot f Hq ltac:(lia) Hsp Hfc) as (f1 & H1 & Hf1).
    destruct (IH (q + chunk) (ptmp q tmp) f1) as (n & f' & Hn & Hl & Hf2); [lia|lia|exact Hf1|].
    exists (Datatypes.S n), f'. split; [lia|]. split; [|exact Hf2].
    eapply loops_more; [exact H1|]. replace (q =? 0) with false by lia. exact Hl.
Qed.

Lemma vff_all tmp : (spill_size_ok p = true \/ count is_srec recs = 0) ->
  exists f, run (loop (vff_pass e kh (blen d) chunk) (0, tmp, vinfo0 1, 0)) w =
  (w, Ok (vtrue e p recs T 1 (count is_srec recs * (8 + bucket_size (ptmp 0 tmp))), f)) /\ f + blen (kvs recs) = csum recs.
Proof using Hp Hum Hd Hf Hchunk.
  intros Hsp. destruct (disk_pow e p Hp recs T w Hd) as (X & Y & _).
  assert (V0 : v2 (N.to_nat 0) (vbase 0 0) = vinfo0 1).
  { change (N.to_nat 0) with 0%nat. rewrite v2_0. unfold VerifyFast.vbase. rewrite sel_none, ssum_none. reflexivity. }
  destruct (vff_pass_ok 0 tmp 0 0 ltac:(lia) (fun _ => eq_refl) Hsp) as (f1 & H1 & Hf1).
  { rewrite sel_none, csel_none. reflexivity. }
  rewrite V0 in H1. change (0 =? 0) with true in H1. cbv iota in H1.
  destruct (vff_passes (count is_srec recs * (8 + bucket_size (ptmp 0 tmp))) Hsp (N.to_nat B) (0 + chunk) (ptmp 0 tmp) f1)
    as (n & f' & Hn & Hl & Hf2); [lia|lia|exact Hf1|].
  exists f'. split; [|exact Hf2].
  eapply loop_run; [eapply loops_more; [exact H1|exact Hl]|]. lia.
Qed.
End Chunk.

Lemma vff_ok buf : 2 * bs + 8 <= buf -> (spill_size_ok p = true \/ count is_srec recs = 0) ->
  exists f, run (vff e kh (blen d) buf) w =
  (w, Ok (vtrue e p recs T 1 (count is_srec recs * (8 + bucket_size (tmp_size e p recs T buf))), f)) /\
  f + blen (kvs recs) = csum recs.
Proof using Hp Hum Hd Hf.
  intros Hb Hsp. unfold vff. change (kh_block_size kh) with bs.
  replace (buf <? 2 * bs + 8) with false by lia. apply vff_all; auto. eapply verify_chunk_pos; eauto.
Qed.
End Db.
