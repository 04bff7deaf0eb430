(** The statements about the ratios reported by verify() in the form of
    Props/VerifyFetchProps.v: databases reached by a history of calls. *)
From Verif Require Import Model.Bytes Model.Err Model.Field Model.Format Model.IO
  Model.BulkIO Model.Bucket Model.Pool Model.Recover Model.Create Model.Store Model.History Model.Visit
  Model.Verify Model.VerifyProgress Model.VerifyFetch Model.Events
  Proofs.BytesFacts Proofs.FieldFacts Proofs.IOFacts Proofs.PoolFacts Proofs.BucketFacts
  Proofs.BulkFacts Proofs.HashFacts Proofs.Table Proofs.Lookup Proofs.SplitFacts
  Proofs.CommitFacts Proofs.CommitInv Proofs.CommitRun Proofs.HeaderFacts Proofs.StoreInv
  Proofs.OpenFacts Proofs.RecoverFacts Proofs.LifeFacts Proofs.EventFacts
  Proofs.FormatFacts Proofs.RefuseFacts Proofs.VisitFacts Proofs.WrittenFacts Proofs.VerifyFacts Proofs.VerifyFast
  Proofs.VerifyTheorems Proofs.VerifyFetchFacts Proofs.VerifyFetchDb
  Spec SpecFormat SpecHeader SpecVisit SpecVerify SpecFetch.
From Verif Require Proofs.VerifyFetchSim.
Opaque loop.

(** ** No spill record belongs to two chains *)
Lemma chain_offs bs P sp ces : 1 <= bucket_capacity bs -> chain bs P sp ces ->
  exists L, blen ces = blen L * bucket_capacity bs /\ NoDup L /\ Forall (fun o => o + 8 <= sp) L /\
    Forall (fun o => exists es sp', In (o, SRec es sp') P /\ es <> [] /\ incl es ces) L.
Proof.
  intros Hc. induction 1 as [|sp es sp' ces H8 Hsp Hin Hlen Hok Hlt Hch (L & L1 & L2 & L3 & L4)].
  - exists []. splits; try constructor.
  - exists (sp - 8 :: L). splits.
    + rewrite blen_app, blen_cons, L1, Hlen. lia.
    + constructor; [|exact L2]. intros Hi. rewrite Forall_forall in L3. specialize (L3 _ Hi). cbn beta in L3. lia.
    + constructor; [lia|]. eapply Forall_impl; [|exact L3]. intros o Ho. cbn beta in Ho. lia.
    + constructor.
      * exists es, sp'. split; [exact Hin|]. split; [|apply incl_appl, incl_refl].
        intros ->. rewrite blen_nil in Hlen. lia.
      * eapply Forall_impl; [|exact L4]. intros o (es0 & s0 & X1 & X2 & X3). exists es0, s0.
        split; [exact X1|]. split; [exact X2|]. apply incl_appr. exact X3.
Qed.

Lemma NoDup_app2 {A} (a b : list A) : NoDup a -> NoDup b -> (forall x, In x a -> In x b -> False) -> NoDup (a ++ b).
Proof.
  intros Ha Hb Hab. induction Ha as [|x a Hx Ha IH]; [exact Hb|]. cbn [app]. constructor.
  - intros Hi. apply in_app_iff in Hi as [Hi|Hi]; [auto|]. apply (Hab x); [left; reflexivity|exact Hi].
  - apply IH. intros y H1 H2. apply (Hab y); [right; exact H1|exact H2].
Qed.

Lemma count_place l : forall b, count (fun x => is_srec (snd x)) (place b l) = count is_srec l.
Proof. induction l as [|r l IH]; intros b; cbn [place count snd]; [reflexivity|]. rewrite IH. reflexivity. Qed.
Lemma count_filter {A} (f : A -> bool) l : count f l = blen (filter f l).
Proof. induction l as [|x l IH]; cbn [count filter]; [reflexivity|]. destruct (f x); [rewrite blen_cons|]; lia. Qed.

Section Db.
Variables (e : env) (p : dbp) (recs : list drec) (T : list bent) (w : world).
Hypothesis Hp : dbp_ok p.
Hypothesis Hum : unmixed p.
Hypothesis Hd : disk e p recs T w.
Hypothesis Hf : files_fit w.
Notation bs := (db_block_size p).
Notation ks := (db_key_size p).
Notation B := (blen T).
Notation M := (ceil_pow2 (blen T)).
Notation kh := (db_kh e p (blen T)).
Notation d := (db_hdr p ++ enc_recs recs).
Notation cap := (bucket_capacity bs).
Notation P := (placed recs).
Notation E := (dents e p recs).
Notation key := (kfile bs (db_kb e p) T).
Notation lens := (lens e p recs T).
Notation rs := (map rec_spec recs).

Lemma used_offs n : (N.of_nat n <= B) -> exists L, blen L = total (lens n) /\ NoDup L /\
  Forall (fun o => exists es sp', In (o, SRec es sp') P /\ es <> [] /\
    forall x, In x es -> bucket_index (en_hash x) B M < N.of_nat n) L.
Proof using Hp Hum Hd.
  induction n as [|n IH]; intros Hn.
  - exists []. splits; try constructor.
  - destruct IH as (L & L1 & L2 & L3); [lia|].
    destruct (bucket_at e p recs T w Hp Hum Hd (N.of_nat n) ltac:(lia)) as (b & es & sp & ces & _ & Hnth & _ & _ & Hch & Hperm).
    destruct (chain_offs bs P sp ces (p_cap p Hp) Hch) as (L' & K1 & K2 & K3 & K4).
    pose proof (clen_chain e p recs T w Hp Hum Hd (N.of_nat n) es sp ces (blen L') ltac:(lia) Hnth Hperm K1) as Hcl.
    assert (Hmine : forall x, In x ces -> bucket_index (en_hash x) B M = N.of_nat n).
    { intros x Hx. assert (Hi : In x (filter (mine B M (N.of_nat n)) E)).
      { eapply Permutation_in; [exact Hperm|]. apply in_app_iff. auto. }
      apply filter_In in Hi as [_ Hi]. apply N.eqb_eq in Hi. exact Hi. }
    destruct (disk_holds e p recs T w Hd) as [_ Hfu].
    exists (L ++ L'). splits.
    + rewrite blen_app, L1. unfold VerifyFacts.lens, upto. rewrite seq_S, !map_app, total_app. cbn [map total plus].
      rewrite Hcl. lia.
    + apply NoDup_app2; auto. intros o H1 H2. rewrite Forall_forall in L3, K4.
      destruct (L3 _ H1) as (es1 & s1 & A1 & A2 & A3). destruct (K4 _ H2) as (es2 & s2 & B1 & B2 & B3).
      assert (Q : SRec es1 s1 = SRec es2 s2) by (eapply Hfu; eauto). injection Q as -> ->.
      destruct es2 as [|x es2]; [exact (A2 eq_refl)|].
      specialize (A3 x (or_introl eq_refl)). rewrite (Hmine x) in A3 by (apply B3; left; reflexivity). lia.
    + apply Forall_app. split.
      * eapply Forall_impl; [|exact L3]. intros o (es0 & s0 & X1 & X2 & X3). exists es0, s0. splits; auto.
        intros x Hx. specialize (X3 x Hx). lia.
      * eapply Forall_impl; [|exact K4]. intros o (es0 & s0 & X1 & X2 & X3). exists es0, s0. splits; auto.
        intros x Hx. rewrite (Hmine x (X3 x Hx)). lia.
Qed.

Lemma used_le : total (lens (N.to_nat B)) <= count is_srec recs.
Proof using Hp Hum Hd.
  destruct (used_offs (N.to_nat B)) as (L & L1 & L2 & L3); [lia|]. rewrite <- L1.
  unfold placed in L3. rewrite <- (count_place recs dat_hdr_size), count_filter.
  rewrite <- (blen_map fst). unfold blen.
  assert (Hi : incl L (map fst (filter (fun x => is_srec (snd x)) (place dat_hdr_size recs)))).
  { intros o Ho. rewrite Forall_forall in L3. destruct (L3 _ Ho) as (es & sp & X1 & _).
    apply in_map_iff. exists (o, SRec es sp). split; [reflexivity|]. apply filter_In. split; [exact X1|reflexivity]. }
  pose proof (NoDup_incl_length L2 Hi) as X. lia.
Qed.

(** ** The end of both algorithms *)
Lemma report_header buf : run (verify_report e buf) w =
  run (y <- (if verify_choose_normal kh (blen d) (blen key) buf then vnf e kh (blen d)
             else vff e kh (blen d) buf) ;;
       pret (vreport_of kh (blen d) (blen key) y)) w.
Proof using Hp Hum Hd.
  pose proof (dk_dat _ _ _ _ _ Hd) as D. pose proof (dk_key _ _ _ _ _ Hd) as K.
  destruct (disk_pow e p Hp _ _ _ Hd) as (H1 & _).
  assert (X : run (verify_open e) w = (w, Ok (kh, blen d, blen key))).
  { unfold verify_open.
    rewrite (run_ebind_ok _ _ _ _ _ (run_open _ _ _ D)).
    rewrite (run_ebind_ok _ _ _ _ _ (run_open _ _ _ K)).
    rewrite (run_ebind_ok _ _ _ _ _ (read_dh p Hp w _ D)).
    rewrite (verify_dat_ok p Hp). erewrite run_ebind_ok by reflexivity.
    rewrite (run_ebind_ok _ _ _ _ _ (read_kh e p Hp _ _ w Hd)).
    rewrite (verify_key_ok e p Hp _ H1). erewrite run_ebind_ok by reflexivity.
    rewrite (verify_dat_key_ok e p Hp _ H1). erewrite run_ebind_ok by reflexivity.
    rewrite (run_ebind_ok _ _ _ _ _ (run_size _ _ _ K)).
    rewrite (run_ebind_ok _ _ _ _ _ (run_size _ _ _ D)). reflexivity. }
  unfold verify_report. rewrite (run_ebind_ok _ _ _ _ _ X). reflexivity.
Qed.

Lemma report_disk buf x : snd (run (verify_report e buf) w) = Ok x ->
  exists alg tot f, x = vreport_of kh (blen d) (blen key) (vtrue e p recs T alg tot, f) /\
    f + blen (kvs recs) = csum e p T w recs /\
    (alg = 0 \/ (B * (bs + 8) + bs <= buf /\ 0 < total (lens (N.to_nat B))) \/ count is_srec recs = 0 ->
     tot = count is_srec recs * (8 + bucket_size cap)).
Proof using Hp Hum Hd Hf.
  intros H0. pose proof (VerifyFetchSim.verify_report_same e buf w) as [_ Hsame]. rewrite H0 in Hsame.
  rewrite (verify_header e p recs T w Hp Hum Hd) in Hsame. revert H0.
  rewrite report_header. destruct (verify_choose_normal kh (blen d) (blen key) buf) eqn:Ec.
  - destruct (vnf_ok e p recs T w Hp Hum Hd Hf) as (f & Hr & Hc). rewrite (run_ebind_ok _ _ _ _ _ Hr). intros X.
    cbn [run pret snd] in X. injection X as <-. do 3 eexists. split; [reflexivity|]. split; [exact Hc|]. auto.
  - apply not_normal in Ec. pose proof (spill_size_116 p Hp) as S. intros X.
    assert (Hs : spill_size_ok p = true \/ count is_srec recs = 0).
    { destruct (spill_size_ok p) eqn:Es; [left; reflexivity|].
      destruct (N.eq_dec (count is_srec recs) 0) as [Z|Z]; [right; exact Z|]. exfalso.
      pose proof (verify_fast_fails e p recs T w Hp Hum Hd Hf buf Ec Es ltac:(lia)) as Y.
      rewrite Y in Hsame. discriminate Hsame. }
    destruct (vff_ok e p recs T w Hp Hum Hd Hf buf Ec Hs) as (f & Hr & Hc). rewrite (run_ebind_ok _ _ _ _ _ Hr) in X.
    cbn [run pret snd] in X. injection X as <-. do 3 eexists. split; [reflexivity|]. split; [exact Hc|].
    intros [A|[[A1 A2]|A]]; [discriminate A| |rewrite A; reflexivity].
    rewrite (tmp_size_whole e p recs T w Hp Hum Hd buf Ec); [reflexivity| |exact A2]. exact A1.
Qed.


Lemma blen_map_total l : total (map (fun kv => 6 + blen (fst kv) + blen (snd kv)) (kvs l)) <= blen (enc_recs l).
Proof using.
  clear. induction l as [|[k v|es sp] l IH]; unfold enc_recs in *; cbn [kvs map total flat_map fst snd]; [lia| |].
  - rewrite blen_app. cbn [enc_rec]. rewrite !blen_app, blen_wr48. lia.
  - rewrite blen_app. lia.
Qed.

Lemma kvs_total l : Forall (drec_ok p) l ->
  total (map (fun kv => 6 + blen (fst kv) + blen (snd kv)) (kvs l)) = vbytes l + blen (kvs l) * (ks + 6).
Proof using Hum.
  clear Hd Hf Hp. unfold vbytes. induction 1 as [|r l Hr Hl IH]; [reflexivity|].
  destruct r as [k v|es sp]; cbn [kvs map total fst snd]; [|exact IH].
  rewrite IH, blen_cons. destruct Hr as [(X1 & _)|[_ []]]. rewrite X1. lia.
Qed.

Lemma spill_total l : Forall (drec_ok p) l -> count is_srec l * (8 + bucket_size cap) <= blen (enc_recs l).
Proof using Hum.
  clear Hd Hf Hp. induction 1 as [|r l Hr Hl IH]; [reflexivity|]. unfold enc_recs in *. cbn [flat_map count]. rewrite blen_app.
  destruct r as [k v|es sp]; cbn [is_srec]; [lia|].
  destruct Hr as [(X1 & X2 & _)|[Y _]]; [|unfold unmixed in Hum; congruence].
  cbn [enc_rec]. rewrite !blen_app, blen_wr48, blen_wr16, blen_enc_bucket, X2. unfold bucket_size in *. cbv zeta in *.
  set (c := bucket_capacity bs) in *. set (n := count is_srec l) in *. lia.
Qed.
End Db.

(** A database reached by a history of calls. *)
Lemma lived_report e a l w s buf x : iter_ok e -> good_args a -> Forall (valid_op (ca_key_size a)) l ->
  lived e a l w s -> snd (run (verify_report e buf) w) = Ok x ->
  exists dat key rs lens w' s', w_dat w = Some dat /\ w_key w = Some key /\
    database (ca_key_size a) (ca_block_size a) dat key rs lens /\ values rs = written sempty [] [] l /\
    run (store_open e) w = (w', Ok s') /\
    let st := true_stats (ca_block_size a) rs lens in
    reports (vr_info x) st /\
    (0 < s_values st -> exists f, vr_avg_fetch x = (f, s_values st) /\
       f + s_values st = total (map (fun kv => nreads (store_fetch e s' (fst kv)) w') (values rs))) /\
    (0 < s_values st -> vr_overhead x =
       (blen key + blen dat, total (map (fun kv => 6 + blen (fst kv) + blen (snd kv)) (values rs)))) /\
    (s_values st = 0 -> vr_avg_fetch x = (0, 1) /\ vr_overhead x = (1, 1)) /\
    vr_load x = (s_values st, capacity (ca_block_size a) * blen lens) /\
    s_spills_used st <= s_spills st /\ snd (vr_waste x) = blen dat /\
    (vi_algorithm (vr_info x) = 0 \/
     (blen lens * (ca_block_size a + 8) + ca_block_size a <= buf /\ 0 < s_spills_used st) \/ s_spills st = 0 ->
     fst (vr_waste x) = s_spill_bytes st - s_spill_bytes_used st).
Proof.
  intros Hit Ha Hv Hl Hx. destruct (good_args_ok a Ha) as (Hp & _).
  assert (Hum : unmixed (dbp_of a)) by reflexivity.
  destruct (lived_written e a l w s Ha Hit Hv Hl) as (recs & T & i & b & Hi & _ & Hk).
  pose proof (si_disk _ _ _ _ _ _ Hi) as Hd. pose proof (sinv_fit e (dbp_of a) recs T s w Hp (young_of a) Hi) as Hf.
  pose proof (young_of a) as Hy. set (p := dbp_of a) in *.
  destruct (report_disk e p recs T w Hp Hum Hd Hf buf x Hx) as (alg & tot & f & -> & Hc & Ht). clear Hx Hl.
  destruct (open_ok e p Hp recs T w Hd) as (Ho & _).
  { right. exists []. split; [apply (si_log _ _ _ _ _ _ Hi)|reflexivity]. }
  do 6 eexists. split; [exact (dk_dat _ _ _ _ _ Hd)|]. split; [exact (dk_key _ _ _ _ _ Hd)|].
  split; [exact (database_of e p recs T w Hp Hum Hd)|]. split; [rewrite values_kvs; exact Hk|].
  split; [exact Ho|]. intros st. rewrite lens_blen.
  pose proof (vtrue_reports e p recs T Hp alg tot) as Hr.
  change (true_stats (db_block_size p) (map rec_spec recs) (VerifyFacts.lens e p recs T (N.to_nat (blen T)))) with st in Hr.
  assert (E0 : s_values st = blen (kvs recs)) by (unfold st, true_stats; cbn [s_values]; rewrite values_kvs; reflexivity).
  assert (E1 : s_spills st = count is_srec recs) by (apply is_spill_srec).
  assert (E2 : s_spill_bytes st = count is_srec recs * (8 + bucket_size (bucket_capacity (db_block_size p)))).
  { unfold st, true_stats. cbn [s_spill_bytes]. rewrite is_spill_srec, (size_cap p Hp). reflexivity. }
  assert (E3 : s_spill_bytes_used st = total (VerifyFacts.lens e p recs T (N.to_nat (blen T))) * (8 + bucket_size (bucket_capacity (db_block_size p)))).
  { unfold st, true_stats. cbn [s_spill_bytes_used]. rewrite (size_cap p Hp). reflexivity. }
  assert (E4 : s_spills_used st = total (VerifyFacts.lens e p recs T (N.to_nat (blen T)))) by reflexivity.
  pose proof (used_le e p recs T w Hp Hum Hd) as Hu.
  pose proof (dk_recs _ _ _ _ _ Hd) as Hrec.
  pose proof (data_short e p recs Hp Hrec (dk_ents _ _ _ _ _ Hd) (dk_low _ _ _ _ _ Hd)) as HD.
  pose proof (disk_fit e p Hp recs T w Hy Hd) as [_ HF2].
  pose proof (kvs_short p recs Hrec) as HK.
  rewrite blen_app in HD.
  assert (HK2 : blen (kfile (db_block_size p) (db_kb e p) T) < 9223372036854775808).
  { rewrite (kfile_len e p Hp T recs w Hd). unfold young in Hy. pose proof (dk_B _ _ _ _ _ Hd) as HB.
    assert (Hb : db_block_size p < 65536) by apply Hp.
    assert ((blen T + 1) * db_block_size p <= 120000000000000 * 65536) by (apply N.mul_le_mono; lia). lia. }
  split; [exact Hr|].
  unfold vreport_of. cbn [vr_avg_fetch vr_overhead vr_load vr_waste vr_info].
  cbn [vtrue vi_value_count vi_key_count vi_value_bytes vi_spill_bytes vi_spill_bytes_tot vi_algorithm].
  rewrite values_kvs, E0.
  pose proof (blen_map_total recs) as HT. rewrite (kvs_total p Hum recs Hrec) in HT.
  pose proof (spill_total p Hum recs Hrec) as HS. cbv zeta.
  split; [|split; [|split; [|split; [|split; [|split]]]]].
  - intros Hn. replace (blen (kvs recs) =? 0) with false by lia. exists f. split; [reflexivity|exact Hc].
  - intros Hn. replace (blen (kvs recs) =? 0) with false by lia. rewrite (kvs_total p Hum recs Hrec).
    change (kh_key_size (db_kh e p (blen T))) with (db_key_size p).
    rewrite !N.mod_small; [reflexivity| |]; [|rewrite blen_app]; change (2 ^ 64) with 18446744073709551616; lia.
  - intros Hn. rewrite Hn. split; reflexivity.
  - change (kh_capacity (db_kh e p (blen T))) with (bucket_capacity (db_block_size p)).
    change (kh_buckets (db_kh e p (blen T))) with (blen T).
    pose proof (bs_range p Hp) as Hbs. rewrite (kfile_len e p Hp T recs w Hd) in HF2. change (db_block_size p) with (ca_block_size a) in *.
    rewrite (capacity_eq (ca_block_size a)) by (clear - Hbs; lia).
    f_equal. apply N.mod_small.
    assert (capacity (ca_block_size a) <= ca_block_size a).
    { unfold capacity. etransitivity; [apply N.div_le_upper_bound with (q := ca_block_size a); lia|lia]. }
    assert (capacity (ca_block_size a) * blen T <= ca_block_size a * blen T) by (apply N.mul_le_mono_r; auto).
    change (2 ^ 64) with 18446744073709551616. lia.
  - rewrite E4, E1. exact Hu.
  - reflexivity.
  - intros Hw. cbn [fst]. rewrite Ht by (rewrite <- E4, <- E1; exact Hw). rewrite E2, E3.
    set (z := 8 + bucket_size (bucket_capacity (db_block_size p))) in *.
    assert (total (VerifyFacts.lens e p recs T (N.to_nat (blen T))) * z <= count is_srec recs * z) by (apply N.mul_le_mono_r; auto).
    change (2 ^ 64) with 18446744073709551616.
    set (A := count is_srec recs * z) in *. set (U := total _ * z) in *.
    replace (A + 18446744073709551616 - U) with (A - U + 1 * 18446744073709551616) by (clear - H; lia).
    rewrite N.mod_add by discriminate. apply N.mod_small. clear - HS HD. lia.
Qed.
