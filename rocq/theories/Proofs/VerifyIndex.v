(** verify() succeeds: the store finds every record of the data file. *)
From Coq Require Import List.
From Verif Require Import Model.Bytes Model.Err Model.Field Model.Format Model.IO
  Model.BulkIO Model.Bucket Model.Pool Model.Recover Model.Create Model.Store Model.History Model.Visit
  Model.Verify Model.Events
  Proofs.BytesFacts Proofs.FieldFacts Proofs.IOFacts Proofs.BucketFacts Proofs.SafeFacts Proofs.HashFacts
  Proofs.BulkFacts Proofs.FormatFacts Proofs.VisitFacts Proofs.RecoverFacts Proofs.EventFacts Proofs.RefuseFacts
  Proofs.VerifyFacts Proofs.VerifyWalk Proofs.VerifySound Proofs.VerifySoundFast
  Spec SpecFormat SpecHeader SpecVisit SpecVerify.

Opaque loop.

(** ** Positions *)
Lemma poss_snd cs : forall off, map snd (poss off cs) = cs.
Proof. induction cs as [|c cs IH]; intros off; cbn [poss map snd]; [|rewrite IH]; reflexivity. Qed.

Lemma poss_ge ks cs : forall off o c, Forall (chunk_ok ks) cs -> In (o, c) (poss off cs) -> off <= o.
Proof.
  induction cs as [|c' cs IH]; intros off o c Hc Hin; cbn [poss] in Hin; [contradiction|].
  inversion Hc; subst. destruct Hin as [E|Hin]; [injection E as -> ->; lia|].
  apply IH in Hin; auto. lia.
Qed.

Lemma poss_nodup ks cs : forall off, Forall (chunk_ok ks) cs -> NoDup (map fst (poss off cs)).
Proof.
  induction cs as [|c cs IH]; intros off Hc; cbn [poss map fst]; [constructor|]. inversion Hc; subst.
  constructor; [|apply IH; auto]. intros Hin. apply in_map_iff in Hin as ([o c'] & Eo & Hin). cbn [fst] in Eo. subst o.
  apply (poss_ge ks) in Hin; auto. pose proof (image_pos ks c H1). lia.
Qed.

Lemma poss_cut kh d cs : forall off o c, split_at kh d off cs -> off <= blen d ->
  In (o, c) (poss off cs) -> cut kh d o c.
Proof.
  induction cs as [|c' cs IH]; intros off o c (S1 & S2) Ho Hin; cbn [poss] in Hin; [contradiction|].
  inversion S2 as [|? ? O1 O2]; subst. cbn [flat_map] in S1.
  assert (L : off + blen (chunk_image c') <= blen d).
  { apply (f_equal blen) in S1. rewrite blen_bdrop, blen_app in S1. lia. }
  assert (E : bdrop (off + blen (chunk_image c')) d = flat_map chunk_image cs).
  { rewrite <- bdrop_bdrop, S1. apply bdrop_app_eq. reflexivity. }
  destruct Hin as [X|Hin].
  - injection X as -> ->. split; auto. split; auto. unfold bsub. rewrite S1. apply btake_app_eq. reflexivity.
  - apply (IH (off + blen (chunk_image c'))); auto. split; auto.
Qed.

Lemma nodup_filter_fst {A} (f : N * A -> bool) l : NoDup (map fst l) -> NoDup (map fst (filter f l)).
Proof.
  induction l as [|x l IH]; cbn [filter map]; intros H; [constructor|]. inversion H; subst.
  destruct (f x); auto. cbn [map]. constructor; auto. intros Hin. apply H2. apply in_map_iff in Hin as (y & E & Hin).
  apply filter_In in Hin as [Hin _]. rewrite <- E. apply in_map. exact Hin.
Qed.

Lemma count_filter {A} (f : A -> bool) l : count f l = blen (filter f l).
Proof. induction l as [|x l IH]; cbn [count filter]; [reflexivity|]. destruct (f x); rewrite ?blen_cons, IH; lia. Qed.

Lemma filter_map_snd {A} (f : A -> bool) (l : list (N * A)) :
  blen (filter (fun x => f (snd x)) l) = blen (filter f (map snd l)).
Proof.
  induction l as [|x l IH]; cbn [filter map]; [reflexivity|]. destruct (f (snd x)); rewrite ?blen_cons; lia.
Qed.

(** Sums over buckets. *)
Lemma total_le (f g : nat -> N) l : (forall j, In j l -> f j <= g j) -> total (map f l) <= total (map g l).
Proof.
  induction l as [|x l IH]; cbn [map total]; intros H; [lia|].
  pose proof (H x (or_introl eq_refl)). assert (total (map f l) <= total (map g l)) by (apply IH; intros; apply H; right; auto). lia.
Qed.
Lemma total_eq (f g : nat -> N) l : (forall j, In j l -> f j <= g j) -> total (map f l) = total (map g l) ->
  forall j, In j l -> f j = g j.
Proof.
  induction l as [|x l IH]; cbn [map total]; intros H E j Hj; [contradiction|].
  pose proof (H x (or_introl eq_refl)). assert (H' : forall j, In j l -> f j <= g j) by (intros; apply H; right; auto).
  pose proof (total_le f g l H'). destruct Hj as [<-|Hj]; [lia|]. apply IH; auto. lia.
Qed.

Lemma seq_indicator n m i : total (map (fun j => if i =? N.of_nat j then 1 else 0) (seq m n)) =
  if (N.of_nat m <=? i) && (i <? N.of_nat (m + n)) then 1 else 0.
Proof.
  revert m. induction n as [|n IH]; intros m; cbn [seq map total].
  - destruct (N.leb_spec (N.of_nat m) i), (N.ltb_spec i (N.of_nat (m + 0))); cbn [andb]; lia.
  - rewrite IH. destruct (N.eqb_spec i (N.of_nat m)), (N.leb_spec (N.of_nat m) i), (N.ltb_spec i (N.of_nat (m + S n))),
      (N.leb_spec (N.of_nat (S m)) i), (N.ltb_spec i (N.of_nat (S m + n))); cbn [andb]; lia.
Qed.

Lemma total_add (f g : nat -> N) l : total (map (fun j => f j + g j) l) = total (map f l) + total (map g l).
Proof. induction l as [|x l IH]; cbn [map total]; lia. Qed.
Lemma total_0 (l : list nat) : total (map (fun _ => 0) l) = 0.
Proof. induction l; cbn [map total]; lia. Qed.

Lemma map_nth_seq {A B} (f : A -> B) d l : map f l = map (fun j => f (nth j l d)) (seq 0 (length l)).
Proof.
  induction l as [|x l IH]; cbn [map length seq nth]; [reflexivity|]. f_equal.
  rewrite <- seq_shift, map_map. rewrite IH. reflexivity.
Qed.

Section Index.
Variables (e : env) (kh : key_header) (d key : bytes) (w : world).
Hypothesis Wd : wget w FDat = Some d.
Hypothesis Wk : wget w FKey = Some key.
Hypothesis Hok : bytes_ok d.
Hypothesis Hlen : 92 <= blen d.
Hypothesis Hbs : 104 <= kh_block_size kh <= 65535.
Hypothesis Hpow : pow_ok (kh_buckets kh) (kh_modulus kh).
Notation bs := (kh_block_size kh).
Notation ks := (kh_key_size kh).
Notation hof k := (hash (e_hasher e) (kh_salt kh) k).
Notation home k := (bucket_index (hof k) (kh_buckets kh) (kh_modulus kh)).

Definition recs (cs : list chunk) (j : N) : list (N * chunk) :=
  filter (fun x => inpass e kh j (snd x)) (poss 92 cs).

(** The chain of bucket [home k] has an entry for every record with that index. *)
Definition indexed (cs : list chunk) (j : N) (l : list bucket) : Prop :=
  bucket_chain e kh d key j l /\
  forall o m k v, In (o, CVal m k v) (poss 92 cs) -> home k = j ->
    exists en, In en (flat_map (cands (hof k)) l) /\ en_off en = o.

Lemma cands_in h l en : In en (flat_map (cands h) l) -> In en (flat_map ents l).
Proof using.
  rewrite !in_flat_map. intros (b & Hb & Hin). exists b. split; auto. apply (cands_ents h). exact Hin.
Qed.

Lemma in_recs cs j x : In x (recs cs j) <-> In x (poss 92 cs) /\ exists m k v, snd x = CVal m k v /\ home k = j.
Proof using.
  unfold recs. rewrite filter_In. split; intros (H1 & H2); split; auto.
  - unfold inpass in H2. destruct (snd x) as [m k v|]; [|discriminate]. apply N.eqb_eq in H2. eauto.
  - destruct H2 as (m & k & v & -> & <-). apply N.eqb_refl.
Qed.

Lemma indexed_incl cs j l : indexed cs j l -> incl (map fst (recs cs j)) (map en_off (flat_map ents l)).
Proof using.
  intros (_ & H) o Hin. apply in_map_iff in Hin as ([o' c] & <- & Hin). apply in_recs in Hin as (Hin & m & k & v & E & <-).
  cbn [snd fst] in *. subst c. destruct (H _ _ _ _ Hin eq_refl) as (en & He & <-).
  apply in_map. eapply cands_in. exact He.
Qed.

Lemma indexed_le cs j l : Forall (chunk_ok ks) cs -> indexed cs j l -> blen (recs cs j) <= blen (flat_map ents l).
Proof using.
  intros Hc Hi. apply indexed_incl in Hi.
  apply (NoDup_incl_length (nodup_filter_fst _ _ (poss_nodup ks cs 92 Hc))) in Hi.
  rewrite !map_length in Hi. unfold blen, recs. clear - Hi. lia.
Qed.

Lemma indexed_exact cs j l : Forall (chunk_ok ks) cs -> indexed cs j l ->
  blen (flat_map ents l) <= blen (recs cs j) ->
  forall en, In en (flat_map ents l) -> exists m k v, In (en_off en, CVal m k v) (poss 92 cs).
Proof using.
  intros Hc Hi Hl en Hen. apply indexed_incl in Hi.
  assert (X : incl (map en_off (flat_map ents l)) (map fst (recs cs j))).
  { apply NoDup_length_incl; auto.
    - apply nodup_filter_fst, (poss_nodup ks), Hc.
    - rewrite !map_length. unfold blen in Hl. clear - Hl. lia. }
  specialize (X (en_off en) (in_map _ _ _ Hen)). apply in_map_iff in X as ([o c] & Eo & Hin).
  apply in_recs in Hin as (Hin & m & k & v & E & _). cbn [fst snd] in *. subst. eauto.
Qed.

(** ** Lookups in the files *)
Lemma cut_key o m k v : cut kh d o (CVal m k v) -> bsub (o + 6) ks d = k /\ bsub (o + 6 + ks) (blen v) d = v /\
  bsub o 6 d = m /\ o + 6 + (ks + blen v) <= blen d.
Proof using.
  intros (C1 & C2 & M & K & _ & _). cbn [chunk_image] in *. rewrite !blen_app, M, K in *.
  assert (L : o + 6 + (ks + blen v) <= blen d) by (clear - C1; lia).
  rewrite !bsub_split in C2.
  apply app_split in C2 as [C2 C3]; [|rewrite blen_bsub by (clear - L; lia); auto].
  apply app_split in C3 as [C3 C4]; [|rewrite blen_bsub by (clear - L; lia); auto]. auto.
Qed.

Section Opened.
Variables (w' : world) (s : store).
Hypothesis Wd' : wget w' FDat = Some d.
Hypothesis Wk' : wget w' FKey = Some key.
Hypothesis Hkh : st_kh s = kh.
Hypothesis Hp0 : st_p0 s = pool_empty.
Hypothesis Hp1 : st_p1 s = pool_empty.
Hypothesis Hc1 : st_c1 s = [].
Hypothesis HB : st_buckets s = kh_buckets kh.
Hypothesis HM : st_modulus s = kh_modulus kh.
Hypothesis Hec : st_ec s = None.

Lemma exists_key cs l o m k v data : split_at kh d 92 cs -> In (o, CVal m k v) (poss 92 cs) -> indexed cs (home k) l ->
  Forall (fun en => en_off en + 6 + ks <= blen d) (flat_map ents l) ->
  0 < blen data < 2 ^ 32 -> run (store_insert e s k data) w' = (w', Er key_exists).
Proof using Hbs Hlen Wd' Wk' Hkh Hp0 Hp1 Hc1 HB HM Hec.
  intros Hs Hin Hi Hf Hd. pose proof Hi as ((b & G & W & Wl) & Hx). destruct (Hx _ _ _ _ Hin eq_refl) as (en & He & Eo).
  unfold store_insert. rewrite Hec. change (2 ^ 32) with 4294967296 in Hd.
  replace ((blen data =? 0) || (4294967295 <? blen data)) with false
    by (symmetry; apply orb_false_iff; split; [apply N.eqb_neq|apply N.ltb_ge]; lia).
  cbv zeta. rewrite Hkh, Hp0, Hp1, HB, HM, Hc1. change (pool_find pool_empty k) with (@None pelem). cbv iota. cbn [cache_find].
  pose proof (read_get e bs w' FKey key ((home k + 1) * bs) Wk') as R. rewrite G in R.
  rewrite (run_ebind_ok _ _ w' w' true); [reflexivity|].
  rewrite (run_ebind_ok _ _ _ _ _ R).
  destruct (exists_walk e bs kh d w' (hof k) k Wd' eq_refl b l W) as (n & Hn & Hl).
  { apply Forall_forall. intros x X. rewrite Forall_forall in Hf. apply Hf. eapply cands_in. exact X. }
  replace (existsb _ _) with true in Hl.
  - unfold exists_bucket. apply (loop_run _ _ _ _ _ _ Hl). change (2 ^ 64) with 18446744073709551616 in Wl. lia.
  - symmetry. apply existsb_exists. exists en. split; auto. unfold is_key. apply beq_eq. rewrite Eo.
    apply (cut_key o m k v). eapply poss_cut; eauto.
Qed.

Lemma find_some_in {A} (f : A -> bool) l x : In x l -> f x = true -> exists y, find f l = Some y.
Proof using. intros H1 H2. destruct (find f l) eqn:E; eauto. pose proof (find_none _ _ E _ H1). congruence. Qed.

Lemma fetch_key cs l o m k v : split_at kh d 92 cs -> In (o, CVal m k v) (poss 92 cs) -> indexed cs (home k) l ->
  (forall en, In en (flat_map ents l) -> exists m' k' v', In (en_off en, CVal m' k' v') (poss 92 cs) /\ en_size en = blen v') ->
  exists m' v', In (CVal m' k v') cs /\ run (store_fetch e s k) w' = (w', Ok v').
Proof using Hbs Hlen Wd' Wk' Hkh Hp0 Hp1 Hc1 HB HM Hec.
  intros Hs Hin Hi Hf. pose proof Hi as ((b & G & W & Wl) & Hx). destruct (Hx _ _ _ _ Hin eq_refl) as (en & He & Eo).
  assert (Hcut : forall en', In en' (flat_map (cands (hof k)) l) -> exists m' k' v', In (CVal m' k' v') cs /\
     bsub (en_off en' + 6) ks d = k' /\ bsub (en_off en' + 6 + ks) (en_size en') d = v' /\
     en_off en' + 6 + (ks + en_size en') <= blen d).
  { intros en' H. apply cands_in in H. destruct (Hf _ H) as (m' & k' & v' & H1 & H2). exists m', k', v'.
    destruct (cut_key _ _ _ _ (poss_cut _ _ _ _ _ _ Hs Hlen H1)) as (K1 & K2 & _ & K3). rewrite H2. split; auto.
    rewrite <- (poss_snd cs 92). apply (in_map snd) in H1. exact H1. }
  destruct (find_some_in (is_key kh d k) _ en He) as (en' & Ef).
  { unfold is_key. apply beq_eq. rewrite Eo. apply (cut_key o m k v). eapply poss_cut; eauto. }
  pose proof (find_some _ _ Ef) as (F1 & F2). unfold is_key in F2. apply beq_eq in F2.
  destruct (Hcut _ F1) as (m' & k' & v' & C1 & C2 & C3 & C4). exists m', v'. split; [congruence|].
  unfold store_fetch. rewrite Hec. cbv zeta. rewrite Hkh, Hp0, Hp1, HB, HM, Hc1. change (pool_find pool_empty k) with (@None pelem). cbv iota. cbn [cache_find].
  pose proof (read_get e bs w' FKey key ((home k + 1) * bs) Wk') as R. rewrite G in R.
  rewrite (run_ebind_ok _ _ _ _ _ R).
  destruct (fetch_walk e bs kh d w' (hof k) k Wd' eq_refl b l W) as (n & Hn & Hl).
  { apply Forall_forall. intros x X. destruct (Hcut _ X) as (? & ? & ? & _ & _ & _ & ?). auto. }
  rewrite Ef, C3 in Hl.
  unfold fetch_bucket. apply (loop_run _ _ _ _ _ _ Hl). change (2 ^ 64) with 18446744073709551616 in Wl. lia.
Qed.
End Opened.

(** ** Both algorithms *)
Lemma home_lt k : home k < kh_buckets kh.
Proof using Hpow. apply bucket_index_lt. exact Hpow. Qed.

Lemma normal_indexed cs j l : Forall (found e kh key w) (poss 92 cs) -> bucket_chain e kh d key j l -> indexed cs j l.
Proof using Wd.
  intros Hf Hc. split; auto. intros o m k v Hin <-. rewrite Forall_forall in Hf.
  pose proof (Hf _ Hin) as (b & G & V). cbn [fst snd] in V. destruct Hc as (b' & G' & W & _).
  rewrite G in G'. injection G' as <-. destruct (vfind_found e bs w d _ _ Wd _ _ W _ V) as (_ & _ & X). exact X.
Qed.

Lemma sum_recs cs : total (map (fun j => blen (recs cs (N.of_nat j))) (seq 0 (N.to_nat (kh_buckets kh)))) = count is_val cs.
Proof using Hpow Hlen Hbs.
  transitivity (total (map (fun j => count (inpass e kh (N.of_nat j)) cs) (seq 0 (N.to_nat (kh_buckets kh))))).
  { f_equal. apply map_ext. intros j. unfold recs. rewrite (filter_map_snd (inpass e kh (N.of_nat j))), poss_snd, count_filter. reflexivity. }
  induction cs as [|c cs IH]; cbn [count]; [apply total_0|].
  rewrite (total_add (fun j => if inpass e kh (N.of_nat j) c then 1 else 0)), IH. f_equal.
  destruct c as [m k v|m x]; cbn [inpass is_val]; [|apply total_0].
  rewrite (seq_indicator (N.to_nat (kh_buckets kh)) 0 (home k)).
  pose proof (home_lt k). replace (home k <? _) with true by (symmetry; apply N.ltb_lt; lia).
  replace (N.of_nat 0 <=? home k) with true by (symmetry; apply N.leb_le; lia). reflexivity.
Qed.

(** What holds of the files when verify() succeeded. *)
Definition all_indexed (cs : list chunk) : Prop :=
  forall j, j < kh_buckets kh -> 0 < blen (recs cs j) -> exists l, indexed cs j l /\
    Forall (fun en => en_off en + 6 + ks <= blen d) (flat_map ents l).
Definition all_exact (cs : list chunk) : Prop :=
  forall j, j < kh_buckets kh -> exists l, indexed cs j l /\
    forall en, In en (flat_map ents l) -> exists m k v,
      In (en_off en, CVal m k v) (poss 92 cs) /\ en_size en = be_value m.

Lemma normal_result w1 v : run (verify_normal e kh (blen d)) w = (w1, Ok v) ->
  w1 = w /\ vi_algorithm v = 0 /\ exists cs, split_at kh d 92 cs /\ Forall by_count cs /\ all_indexed cs /\
    (vi_key_count v = vi_value_count v -> all_exact cs).
Proof using Wd Wk Hok Hlen Hpow Hbs.
  intros Hr. destruct (normal_inv e kh d key w Wd Wk Hok w1 v Hlen Hr) as (-> & Ha & cs & ls & S1 & Sc & S2 & L1 & L2 & C1 & C2).
  split; auto. split; auto. exists cs. split; auto. split; auto.
  assert (G : forall j, j < kh_buckets kh -> indexed cs j (nth (N.to_nat j) ls []) /\
    Forall (entry_good e kh d) (flat_map ents (nth (N.to_nat j) ls []))).
  { intros j Hj. destruct (L2 (N.to_nat j) ltac:(lia)) as (B & F). rewrite N2Nat.id in B. split; auto.
    apply normal_indexed; auto. }
  split.
  - intros j Hj _. destruct (G j Hj) as (G1 & G2). eexists. split; [exact G1|].
    eapply Forall_impl; [|exact G2]. intros en (X & _). exact X.
  - intros Heq j Hj. destruct (G j Hj) as (G1 & G2). eexists. split; [exact G1|]. intros en Hen.
    assert (X : blen (recs cs j) = blen (flat_map ents (nth (N.to_nat j) ls []))).
    { rewrite C1, C2, (map_nth_seq _ []), <- (sum_recs cs) in Heq.
      replace (length ls) with (N.to_nat (kh_buckets kh)) in Heq by lia.
      assert (Y := total_eq (fun j => blen (recs cs (N.of_nat j))) (fun j => blen (flat_map ents (nth j ls [])))
        (seq 0 (N.to_nat (kh_buckets kh)))). cbv beta in Y.
      specialize (Y ltac:(intros i Hi; apply in_seq in Hi; apply indexed_le; [apply S1|];
         rewrite <- (Nat2N.id i) at 2; apply G; lia) (eq_sym Heq) (N.to_nat j)).
      rewrite N2Nat.id in Y. apply Y. apply in_seq. lia. }
    destruct (indexed_exact cs j _ (proj2 S1) G1 ltac:(lia) en Hen) as (m & k & x & Hin).
    exists m, k, x. split; auto. rewrite Forall_forall in G2. destruct (G2 en Hen) as (_ & <- & _).
    destruct (cut_key _ _ _ _ (poss_cut _ _ _ _ _ _ S1 Hlen Hin)) as (_ & _ & <- & K).
    apply rd48_be; [apply bytes_ok_bsub; exact Hok|].
    assert (blen (bsub (en_off en) 6 d) = 6) by (apply blen_bsub; lia). unfold blen in *. lia.
Qed.

Lemma fast_result buffer w1 v : run (verify_fast e kh (blen d) buffer) w = (w1, Ok v) ->
  w1 = w /\ vi_algorithm v = 1 /\ exists cs, split_at kh d 92 cs /\ Forall by_size cs /\ all_indexed cs.
Proof using Wd Wk Hok Hlen Hpow Hbs.
  intros Hr. destruct (fast_inv e kh d key w Wd Wk Hok buffer w1 v Hlen ltac:(lia) ltac:(apply (pow_ok_pos _ _ Hpow)) Hr)
    as (-> & Ha & cs & S1 & S2 & S3 & S4).
  split; auto. split; auto. exists cs. split; auto. split; auto. intros j Hj Hpos.
  destruct (S4 j Hj) as (K1 & l & W & Wl & Hc). set (b := bk_of_blob (bsub ((j + 1) * bs) bs key)) in *.
  assert (F : forall o m k x, In (o, CVal m k x) (poss 92 cs) -> home k = j ->
     bk_size b <= bucket_capacity bs /\ exists en, In en (flat_map (cands (hof k)) l) /\ en_off en = o).
  { intros o m k x Hin <-. pose proof (S3 _ Hin (home_lt k)) as V. cbn [fst snd ffound] in V.
    destruct (vfind_found e bs w d _ _ Wd _ _ W _ V) as (_ & X). exact X. }
  assert (Hsz : bk_size b <= bucket_capacity bs).
  { destruct (recs cs j) as [|[o c] r] eqn:Er; [exfalso; exact (N.lt_irrefl _ Hpos)|].
    assert (Hin : In (o, c) (recs cs j)) by (rewrite Er; left; reflexivity).
    apply in_recs in Hin as (Hin & m & k & x & Ec & Eh). cbn [snd] in Ec. subst c. apply (F _ _ _ _ Hin Eh). }
  destruct (block_alike e bs key ((j + 1) * bs) Hbs K1 Hsz) as (b' & G & A).
  destruct (walk_alike e bs d _ _ _ A W) as (l' & W' & E1 & E2 & E3).
  assert (I : indexed cs j l').
  { split. - exists b'. split; auto. split; auto. rewrite E1. exact Wl.
    - intros o m k x Hin Eh. rewrite E3. apply (F _ _ _ _ Hin Eh). }
  exists l'. split; auto. apply Forall_forall. intros en Hen.
  destruct (indexed_exact cs j l' (proj2 S1) I) with (en := en) as (m & k & x & Hin); auto.
  - rewrite E2, <- Hc. unfold recs. rewrite (filter_map_snd (inpass e kh j)), poss_snd, count_filter. apply N.le_refl.
  - destruct (cut_key _ _ _ _ (poss_cut _ _ _ _ _ _ S1 Hlen Hin)) as (_ & _ & _ & K). lia.
Qed.
End Index.

(** ** The headers and the store *)
Section Files.
Variables (e : env) (d k : bytes) (w : world).
Hypothesis Wd : w_dat w = Some d.
Hypothesis Wk : w_key w = Some k.
Hypothesis Dok : bytes_ok d.
Hypothesis Kok : bytes_ok k.
Hypothesis Dl : 92 <= blen d.
Hypothesis Kl : 104 <= blen k.
Notation H := (e_hasher e).

Lemma verify_checked buf :
  match first_failed (dat_checks d ++ key_checks H k ++ dat_key_checks d k) with
  | Some er => run (verify e buf) w = (w, Er er)
  | None => run (verify e buf) w =
      run (if verify_choose_normal (kh_of k) (blen d) (blen k) buf then verify_normal e (kh_of k) (blen d)
           else verify_fast e (kh_of k) (blen d) buf) w
  end.
Proof using Wd Wk Dok Kok Dl Kl.
  unfold verify.
  rewrite (run_ebind_ok _ _ _ _ _ (run_open FDat w d Wd)), (run_ebind_ok _ _ _ _ _ (run_open FKey w k Wk)).
  rewrite (run_ebind_ok _ _ _ _ _ (read_dat d Dl w Wd)), dat_verdict by auto.
  rewrite first_failed_app. destruct (first_failed (dat_checks d)) as [er|] eqn:ED.
  { apply run_ebind_er. unfold plift, verdict. rewrite ED. reflexivity. }
  erewrite run_ebind_ok by (unfold plift, verdict; rewrite ED; reflexivity).
  rewrite (run_ebind_ok _ _ _ _ _ (read_key k w Kl Wk)), key_verdict, dat_key_verdict by auto.
  rewrite first_failed_app. destruct (first_failed (key_checks H k)) as [er|] eqn:EK.
  { apply run_ebind_er. unfold plift, verdict. rewrite EK. reflexivity. }
  erewrite run_ebind_ok by (unfold plift, verdict; rewrite EK; reflexivity).
  destruct (first_failed (dat_key_checks d k)) as [er|] eqn:EDK.
  { apply run_ebind_er. unfold plift. rewrite verdict_app. unfold verdict. rewrite EK, EDK. reflexivity. }
  erewrite run_ebind_ok by (unfold plift; rewrite verdict_app; unfold verdict; rewrite EK, EDK; reflexivity).
  rewrite (run_ebind_ok _ _ _ _ _ (run_sz FKey w k Wk)), (run_ebind_ok _ _ _ _ _ (run_sz FDat w d Wd)). reflexivity.
Qed.

(** The opened store. *)
Definition opened : store :=
  let kh := kh_of k in
  let thresh := N.max 65536 (kh_load_factor kh * kh_capacity kh) in
  Store kh pool_empty pool_empty [] (thresh / 2) thresh (kh_buckets kh) (ceil_pow2 (kh_buckets kh)) None.

Lemma open_store : first_failed (dat_checks d ++ key_checks H k ++ dat_key_checks d k) = None -> 104 < blen k ->
  w_log w = None -> run (store_open e) w = (World (Some d) (Some k) (Some []), Ok opened).
Proof using Wd Wk Dok Kok Dl Kl.
  rewrite !first_failed_app. intros HF Kl' Hlog.
  destruct (first_failed (dat_checks d)) as [er|] eqn:ED; [discriminate|].
  destruct (first_failed (key_checks H k)) as [er|] eqn:EK; [discriminate|].
  set (w1 := World (Some d) (Some k) None). set (w2 := World (Some d) (Some k) (Some [])).
  unfold store_open.
  rewrite (run_ebind_ok _ _ _ _ _ (recover_no_log e w d k Wd Wk Dok Dl ED Kl' ltac:(rewrite Hlog; exact I))).
  rewrite (run_ebind_ok _ _ w1 w1 tt) by reflexivity.
  rewrite (run_ebind_ok _ _ w1 w1 tt) by reflexivity.
  rewrite (run_ebind_ok _ _ w1 w2 tt) by reflexivity.
  rewrite (run_ebind_ok _ _ _ _ _ (read_dat d Dl w2 eq_refl)), dat_verdict by auto.
  erewrite run_ebind_ok by (unfold plift, verdict; rewrite ED; reflexivity).
  rewrite (run_ebind_ok _ _ _ _ _ (read_key k w2 Kl eq_refl)), key_verdict, dat_key_verdict by auto.
  erewrite run_ebind_ok by (unfold plift, verdict; rewrite EK; reflexivity).
  erewrite run_ebind_ok by (unfold plift; rewrite verdict_app; unfold verdict; rewrite EK, HF; reflexivity).
  pose proof (key_verdict e k Kok Kl) as V. unfold verdict in V. rewrite EK in V.
  assert (B : (kh_buckets (kh_of k) <? 1) = false).
  { unfold verify_key in V. destruct (kh_buckets (kh_of k) <? 1); [|reflexivity].
    repeat match type of V with (if ?b then _ else _) = _ => destruct b; try discriminate V end. }
  cbv zeta. rewrite B. reflexivity.
Qed.

Lemma passed_header : first_failed (dat_checks d ++ key_checks H k ++ dat_key_checks d k) = None ->
  104 <= kh_block_size (kh_of k) <= 65535 /\ 0 < kh_buckets (kh_of k) /\ kh_key_size (kh_of k) = num_at 26 2 d.
Proof using Wd Wk Dok Kok Dl Kl.
  rewrite !first_failed_app. intros HF.
  destruct (first_failed (dat_checks d)) as [er|] eqn:ED; [discriminate|].
  destruct (first_failed (key_checks H k)) as [er|] eqn:EK; [discriminate|].
  assert (B16 : kh_block_size (kh_of k) = num_at 44 2 k /\ kh_key_size (kh_of k) = num_at 26 2 k /\
     kh_block_size (kh_of k) <= 65535).
  { unfold kh_of, dec_key_header. cbn [kh_block_size kh_key_size]. unfold key_hdr_size.
    rewrite !f16 by (auto; lia). split; [reflexivity|]. split; [reflexivity|].
    assert (X : bytes_ok (bytes_at (N.to_nat 44) 2 k)) by (apply ok_at; auto).
    assert (Y : length (bytes_at (N.to_nat 44) 2 k) = 2%nat) by (apply length_at; unfold blen in Kl; lia).
    unfold num_at. destruct (bytes_at (N.to_nat 44) 2 k) as [|x [|y [|z t]]]; try discriminate Y.
    inversion X as [|? ? X1 X']; subst. inversion X' as [|? ? X2 _]; subst.
    unfold be_value. cbn [fold_left]. lia. }
  destruct B16 as (E1 & E2 & E3).
  unfold key_checks in EK. cbn [first_failed] in EK.
  repeat match type of EK with (if ?b then _ else _) = _ => destruct b eqn:?; try discriminate EK end.
  unfold dat_key_checks in HF. cbn [first_failed] in HF.
  repeat match type of HF with (if ?b then _ else _) = _ => destruct b eqn:?; try discriminate HF end.
  repeat match goal with X : (_ <=? _) = true |- _ => apply N.leb_le in X end.
  split; [lia|]. split.
  - unfold kh_of, dec_key_header. cbn [kh_buckets]. fold (kh_block_size (kh_of k)).
    change (rd16 (bsub 44 2 (bsub 0 key_hdr_size k))) with (kh_block_size (kh_of k)).
    unfold buckets_of_size. rewrite E1. set (b := num_at 44 2 k) in *. fold (blen k) in *.
    assert (L : 2 * b <= blen k) by assumption.
    replace (b <? blen k) with true by (symmetry; apply N.ltb_lt; lia).
    replace (0 <? b) with true by (symmetry; apply N.ltb_lt; lia).
    apply N.div_str_pos. lia.
  - rewrite E2. unfold same in *. repeat match goal with X : (_ =? _) = true |- _ => apply N.eqb_eq in X end. assumption.
Qed.
End Files.

(** A store opened after verify() succeeded knows every key. *)
Lemma verify_sound e d k w buf w1 v :
  w_dat w = Some d -> w_key w = Some k -> w_log w = None -> bytes_ok d -> bytes_ok k -> files_fit w ->
  run (verify e buf) w = (w1, Ok v) ->
  w1 = w /\ exists cs w' s,
    bdrop 92 d = flat_map chunk_image cs /\ Forall (chunk_ok (num_at 26 2 d)) cs /\
    (if vi_algorithm v =? 0 then Forall by_count cs else Forall by_size cs) /\
    run (store_open e) w = (w', Ok s) /\ same_files w' w /\
    (forall m kk x data, In (CVal m kk x) cs -> 0 < blen data < 2 ^ 32 ->
       run (store_insert e s kk data) w' = (w', Er key_exists)) /\
    (vi_algorithm v = 0 -> vi_key_count v = vi_value_count v -> Forall plain cs ->
     forall m kk x, In (CVal m kk x) cs ->
       exists m' x', In (CVal m' kk x') cs /\ run (store_fetch e s kk) w' = (w', Ok x')).
Proof.
  intros Wd Wk Wl Dok Kok Hfit Hr.
  assert (Dl : 92 <= blen d).
  { destruct (N.leb_spec 92 (blen d)) as [L|L]; auto. exfalso. revert Hr. unfold verify.
    rewrite (run_ebind_ok _ _ _ _ _ (run_open FDat w d Wd)), (run_ebind_ok _ _ _ _ _ (run_open FKey w k Wk)).
    rewrite run_ebind_er with (e := short_read) (w' := w).
    - intros X. discriminate X.
    - unfold read_dat_header. apply run_ebind_er. apply (run_read_short FDat _ _ w d Wd); [discriminate|exact L]. }
  assert (Kl : 104 <= blen k).
  { destruct (N.leb_spec 104 (blen k)) as [L|L]; auto. exfalso. revert Hr. unfold verify.
    rewrite (run_ebind_ok _ _ _ _ _ (run_open FDat w d Wd)), (run_ebind_ok _ _ _ _ _ (run_open FKey w k Wk)).
    rewrite (run_ebind_ok _ _ _ _ _ (read_dat d Dl w Wd)).
    unfold plift. destruct (verify_dat (dh_of d)) as [[]|er].
    - rewrite (run_ebind_ok _ _ w w tt) by reflexivity. rewrite run_ebind_er with (e := short_read) (w' := w).
      + intros X. discriminate X.
      + unfold read_key_header. apply run_ebind_er. apply (run_read_short FKey _ _ w k Wk); [discriminate|exact L].
    - rewrite run_ebind_er with (e := er) (w' := w) by reflexivity. intros X. discriminate X. }
  pose proof (verify_checked e d k w Wd Wk Dok Kok Dl Kl buf) as HC.
  destruct (first_failed _) as [er|] eqn:HF; [rewrite HC in Hr; discriminate Hr|]. rewrite HC in Hr. clear HC.
  destruct (passed_header e d k w Wd Wk Dok Kok Dl Kl HF) as (Hbs & HB & Eks).
  set (kh := kh_of k) in *.
  assert (Klt : blen k < 2 ^ 64) by (apply (Hfit FKey); exact Wk).
  assert (Hpow : pow_ok (kh_buckets kh) (kh_modulus kh)).
  { change (kh_modulus kh) with (ceil_pow2 (kh_buckets kh)). apply ceil_pow2_ok; auto.
    apply N.le_lt_trans with (blen k); [|exact Klt].
    unfold kh, kh_of, dec_key_header. cbn [kh_buckets]. unfold buckets_of_size.
    destruct (_ <? _); [|lia]. destruct (N.ltb_spec 0 (rd16 (bsub 44 2 (bsub 0 key_hdr_size k)))) as [P|P]; [|lia].
    etransitivity; [apply N.div_le_upper_bound with (q := blen k); [lia|nia]|lia]. }
  assert (Kl' : 104 < blen k).
  { assert (X : kh_buckets kh <> 0) by lia. destruct (N.leb_spec (blen k) 104) as [L|]; auto. exfalso. apply X.
    unfold kh, kh_of, dec_key_header. cbn [kh_buckets]. unfold buckets_of_size.
    change (rd16 (bsub 44 2 (bsub 0 key_hdr_size k))) with (kh_block_size kh).
    replace (kh_block_size kh <? blen k) with false by (symmetry; apply N.ltb_ge; lia). reflexivity. }
  pose proof (open_store e d k w Wd Wk Dok Kok Dl Kl HF Kl' Wl) as Ho.
  set (w2 := World (Some d) (Some k) (Some [])) in *.
  assert (R : w1 = w /\ exists cs, split_at kh d 92 cs /\
     (if vi_algorithm v =? 0 then Forall by_count cs else Forall by_size cs) /\ all_indexed e kh d k cs /\
     (vi_algorithm v = 0 -> vi_key_count v = vi_value_count v -> all_exact e kh d k cs)).
  { destruct (verify_choose_normal kh (blen d) (blen k) buf).
    - apply (normal_result e kh d k w Wd Wk Dok Dl Hbs Hpow) in Hr as (-> & A & cs & R1 & R0 & R2 & R3). rewrite A. eauto 8.
    - apply (fast_result e kh d k w Wd Wk Dok Dl Hbs Hpow) in Hr as (-> & A & cs & R1 & R0 & R2). split; auto. exists cs.
      rewrite A. split; auto. split; auto. split; auto. intros Y. discriminate Y. }
  destruct R as (-> & cs & R1 & R0 & R2 & R3). split; auto. exists cs, w2, (opened k).
  split; [apply R1|]. split; [rewrite <- Eks; apply R1|]. split; [exact R0|]. split; [exact Ho|].
  split; [split; symmetry; assumption|].
  assert (P : forall m kk x, In (CVal m kk x) cs -> exists o, In (o, CVal m kk x) (poss 92 cs)).
  { intros m kk x Hin. rewrite <- (poss_snd cs 92) in Hin. apply in_map_iff in Hin as ([o c] & E & Hin).
    cbn [snd] in E. subst c. eauto. }
  split.
  - intros m kk x data Hin Hdata. destruct (P _ _ _ Hin) as (o & Ho').
    destruct (R2 _ (home_lt e kh Hpow kk)) as (l & L1 & L2).
    { assert (Hr' : In (o, CVal m kk x) (recs e kh cs (bucket_index (hash (e_hasher e) (kh_salt kh) kk) (kh_buckets kh) (kh_modulus kh)))).
      { apply in_recs. split; auto. exists m, kk, x. auto. }
      destruct (recs e kh cs _); [contradiction|]. rewrite blen_cons. lia. }
    eapply (exists_key e kh d k Dl Hbs w2 (opened k)); try reflexivity; eauto.
  - intros A C Hpl m kk x Hin. destruct (P _ _ _ Hin) as (o & Ho').
    destruct (R3 A C _ (home_lt e kh Hpow kk)) as (l & L1 & L2).
    eapply (fetch_key e kh d k Dl Hbs w2 (opened k)); try reflexivity; eauto.
    intros en Hen. destruct (L2 en Hen) as (m' & k' & x' & L3 & L4). exists m', k', x'. split; auto.
    rewrite L4. rewrite Forall_forall in Hpl. apply (Hpl (CVal m' k' x')).
    rewrite <- (poss_snd cs 92). apply (in_map snd) in L3. exact L3.
Qed.
