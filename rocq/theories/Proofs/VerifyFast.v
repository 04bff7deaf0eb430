(** verify_fast of a well-formed database. *)
From Verif Require Import Model.Bytes Model.Err Model.Field Model.Format Model.IO
  Model.BulkIO Model.Bucket Model.Pool Model.Recover Model.Create Model.Store Model.History Model.Visit
  Model.Verify Model.Events
  Proofs.BytesFacts Proofs.FieldFacts Proofs.IOFacts Proofs.PoolFacts Proofs.BucketFacts
  Proofs.BulkFacts Proofs.HashFacts Proofs.Table Proofs.Lookup Proofs.SplitFacts
  Proofs.CommitFacts Proofs.CommitInv Proofs.CommitRun Proofs.HeaderFacts Proofs.StoreInv
  Proofs.OpenFacts Proofs.RecoverFacts
  Proofs.FormatFacts Proofs.RefuseFacts Proofs.VisitFacts Proofs.WrittenFacts Proofs.VerifyFacts
  Spec SpecFormat SpecHeader SpecVisit SpecVerify.

Ltac vproj := cbn [vi_algorithm vi_key_count vi_value_count vi_value_bytes vi_spill_count vi_spill_count_tot
  vi_spill_bytes vi_spill_bytes_tot vi_hist].

(** Scanning up to a record. *)
Lemma scan_to (w : world) (d hdr : bytes) (recs : list drec) {St R} (step : St * breader -> prog (St * breader + res R))
    (Inv : list drec -> St -> Prop) (r : res R) k (stop : list drec) :
  d = hdr ++ enc_recs recs ->
  (forall pre x rest s rd, recs = pre ++ x :: rest -> (length pre < length stop)%nat -> Inv pre s ->
    at_off d rd (blen hdr + blen (enc_recs pre)) ->
    exists s' rd', run (step (s, rd)) w = (w, inl (s', rd')) /\ Inv (pre ++ [x]) s' /\
      at_off d rd' (blen hdr + blen (enc_recs pre) + blen (enc_rec x))) ->
  (forall s rd, Inv stop s -> at_off d rd (blen hdr + blen (enc_recs stop)) ->
    exists n, (n <= k)%nat /\ loops step n (s, rd) w w r) ->
  forall after s rd, recs = stop ++ after -> Inv [] s -> at_off d rd (blen hdr) ->
  exists n, (n <= length stop + k)%nat /\ loops step n (s, rd) w w r.
Proof.
  intros Hd Hs He after s rd Hrec Hi Hr.
  assert (G : forall rest pre s rd, stop = pre ++ rest -> Inv pre s ->
    at_off d rd (blen hdr + blen (enc_recs pre)) ->
    exists n, (n <= length rest + k)%nat /\ loops step n (s, rd) w w r).
  { clear s rd Hi Hr. induction rest as [|x rest IH]; intros pre s rd Hst Hi Hr.
    - rewrite app_nil_r in Hst. subst pre. apply He; auto.
    - destruct (Hs pre x (rest ++ after) s rd) as (s1 & rd1 & H1 & H2 & H3); auto.
      + rewrite Hrec, Hst, <- app_assoc. reflexivity.
      + rewrite Hst, app_length. cbn [length]. lia.
      + destruct (IH (pre ++ [x]) s1 rd1) as (n & H4 & H5); auto.
        * rewrite <- app_assoc. exact Hst.
        * rewrite enc_recs_app, blen_app. unfold enc_recs at 2. cbn [flat_map]. rewrite app_nil_r.
          rewrite N.add_assoc. exact H3.
        * exists (Datatypes.S n). split; [cbn [length Nat.add]; lia|]. eapply loops_more; eauto. }
  apply (G stop []); auto. unfold enc_recs. cbn [flat_map]. rewrite blen_nil, N.add_0_r. exact Hr.
Qed.

Lemma dec_at_nth l : forall i j, nth j (dec_at i l) 0 = nth j l 0 - (if (j =? i)%nat then 1 else 0).
Proof.
  induction l as [|x l IH]; intros [|i] [|j]; cbn [dec_at nth Nat.eqb]; try lia. apply IH.
Qed.
Lemma dec_at_length l : forall i, length (dec_at i l) = length l.
Proof. induction l as [|x l IH]; intros [|i]; cbn [dec_at length]; auto. Qed.

Section Db.
Variables (e : env) (p : dbp) (recs : list drec) (T : list bent) (w : world).
Hypothesis Hp : dbp_ok p.
Hypothesis Hum : unmixed p.
Hypothesis Hd : disk e p recs T w.
Hypothesis Hf : files_fit w.
Notation bs := (db_block_size p).
Notation ks := (db_key_size p).
Notation B := (blen T).
Notation M := (ceil_pow2 (blen T)).
Notation kh := (db_kh e p (blen T)).
Notation H := (e_hasher e).
Notation d := (db_hdr p ++ enc_recs recs).
Notation cap := (bucket_capacity bs).
Notation P := (placed recs).
Notation E := (dents e p recs).
Notation nmine := (nmine e p recs T).
Notation clen := (clen e p recs T).
Notation lens := (lens e p recs T).
Notation v2 := (v2 e p recs T).
Notation key := (kfile bs (db_kb e p) T).

(** ** Counting keys *)
Lemma vf_chain_ok sp ces : chain bs P sp ces -> forall nk ns tmp v,
  exists n c, loops (vf_count_step e bs) n (sp, nk, ns, tmp, v) w w
    (Ok (nk + blen ces, ns + c, if c =? 0 then tmp else cap, vadd p 0 c v)) /\
    N.of_nat n <= sp + 1 /\ blen ces = c * cap.
Proof using Hp Hum Hd.
  induction 1 as [|sp es2 sp' ces H8 Hsp Hin Hlen Hok Hlt Hch IH]; intros nk ns tmp v.
  - exists 1%nat, 0. split; [|split; [lia|reflexivity]]. constructor. unfold vf_count_step. cbn [run].
    change (0 =? 0) with true. cbv iota. cbn [run]. rewrite (blen_nil (A:=entry)), !N.add_0_r.
    f_equal. f_equal. f_equal. f_equal. destruct v. unfold vadd. vproj. f_equal; lia.
  - destruct (disk_holds e p recs T w Hd) as [Hho _]. pose proof (dk_dat _ _ _ _ _ Hd) as Wd.
    destruct (read_spill bs e d P w sp es2 sp') as (b2 & Hb2 & R2); auto; [lia|apply (p_cap p Hp)|apply (p_bs p Hp)|].
    destruct (IH (nk + bk_size b2) (ns + 1) (bk_size b2) (vi_spill (bk_actual b2) v)) as (n & c & Hlo & Hn & Hc).
    exists (Datatypes.S n), (c + 1). split; [|split; [lia|rewrite blen_app, Hlen, Hc; lia]].
    eapply loops_more.
    + unfold vf_count_step. replace (sp =? 0) with false by lia.
      rewrite (run_bind_eq _ _ _ _ _ Hb2). cbv beta iota. cbn [run]. rewrite (rep_spill _ _ _ _ R2). reflexivity.
    + replace (c + 1 =? 0) with false by lia. rewrite blen_app.
      assert (Es : bk_size b2 = cap) by (rewrite (rep_size _ _ _ _ R2), Hlen; reflexivity).
      replace (nk + (blen es2 + blen ces)) with (nk + bk_size b2 + blen ces) by lia.
      replace (ns + (c + 1)) with (ns + 1 + c) by lia.
      replace (if c =? 0 then bk_size b2 else cap) with cap in Hlo by (destruct (c =? 0); auto).
      replace (vadd p 0 (c + 1) v) with (vadd p 0 c (vi_spill (bk_actual b2) v)); [exact Hlo|].
      unfold vadd, vi_spill, bk_actual. vproj. rewrite Es. f_equal; lia.
Qed.

Lemma fits_T : Forall (fits bs) T.
Proof using Hp Hum Hd. exact (T_fits kh (p_cap p Hp) T (disk_bent e p recs T w Hd B)). Qed.

Lemma key_len : blen key = (B + 1) * bs.
Proof using Hp Hum Hd. apply blen_kfile; [apply p_kb; auto|exact fits_T]. Qed.

Section Pass.
Variables (q bn : N).
Hypothesis Hq : q + bn <= B.
Definition pbuf : bytes := bsub ((q + 1) * bs) (bn * bs) key.

Lemma read_chunk : run (p_read FKey ((q + 1) * bs) (bn * bs)) w = (w, Ok pbuf).
Proof using Hp Hum Hd Hq.
  apply run_read; [apply Hd|]. rewrite key_len. clear - Hq. nia.
Qed.

Lemma chunk_block i : i < bn ->
  bsub (i * bs) bs pbuf = kblock bs (nthN T (q + i) b0).
Proof using Hp Hum Hd Hq.
  intros Hi. unfold pbuf. rewrite bsub_bsub by (clear - Hi; nia).
  replace ((q + 1) * bs + i * bs) with ((q + i + 1) * bs) by lia.
  apply (kfile_block bs (db_kb e p) T (q + i)); [apply p_kb; auto|exact fits_T|lia].
Qed.

(** The bucket in the buffer with its chain. *)
Lemma chunk_bucket i : i < bn ->
  exists es sp ces, nthN T (q + i) b0 = (es, sp) /\ bk_rep bs (bk_of_blob (bsub (i * bs) bs pbuf)) es sp /\
    ents_ok es /\ chain bs P sp ces /\ Permutation (es ++ ces) (filter (mine B M (q + i)) E).
Proof using Hp Hum Hd Hq.
  intros Hi. destruct (bucket_at e p recs T w Hp Hum Hd (q + i)) as (b & es & sp & ces & _ & Hn & R & O & Hch & Hperm); [lia|].
  exists es, sp, ces. split; auto. split; auto. rewrite (chunk_block i Hi), Hn. unfold kblock. cbn [fst snd].
  eapply bk_of_blob_rep; [reflexivity| | | | |apply (p_bs p Hp)].
  - apply blen_enc_block. eapply rep_size_le; eauto.
  - apply O.
  - eapply rep_spill_lt; eauto.
  - eapply rep_cap; eauto.
Qed.

Lemma vf_count_ok va : forall k i tmp, (i + k = N.to_nat bn)%nat ->
  exists tmp', run (vf_count e bs k pbuf (N.of_nat i) tmp (v2 (N.to_nat q + i) va)) w =
    (w, Ok (map (fun j => nmine (q + N.of_nat j)) (seq i k), tmp', v2 (N.to_nat q + i + k) va)) /\
    tmp' = (if total (map (fun j => clen (q + N.of_nat j)) (seq i k)) =? 0 then tmp else cap).
Proof using Hp Hum Hd Hq.
  induction k as [|k IH]; intros i tmp Hik.
  - exists tmp. split; [|reflexivity]. cbn [vf_count seq map]. rewrite Nat.add_0_r. reflexivity.
  - assert (Hi : N.of_nat i < bn) by lia.
    destruct (chunk_bucket (N.of_nat i) Hi) as (es & sp & ces & Hn & R & O & Hch & Hperm).
    cbn [vf_count]. cbv zeta. rewrite (rep_spill _ _ _ _ R), (rep_size _ _ _ _ R).
    destruct (vf_chain_ok sp ces Hch (blen es) 0 tmp (v2 (N.to_nat q + i) va)) as (n & c & Hlo & Hln & Hc).
    apply loop_run in Hlo; [|apply chain_lt in Hch; lia].
    rewrite (run_ebind_ok _ _ _ _ _ Hlo). cbv beta iota zeta.
    assert (Hnm : blen es + blen ces = nmine (q + N.of_nat i)).
    { unfold VerifyFacts.nmine. rewrite <- (perm_blen _ _ Hperm), blen_app. reflexivity. }
    assert (Hcl : clen (q + N.of_nat i) = c) by (eapply clen_chain; eauto; lia).
    assert (EV : vi_keys (blen es + blen ces) (vi_bucket (0 + c) (vadd p 0 c (v2 (N.to_nat q + i) va)))
      = v2 (N.to_nat q + Datatypes.S i) va).
    { rewrite <- plus_n_Sm, <- v2_S. replace (N.of_nat (N.to_nat q + i)) with (q + N.of_nat i) by lia.
      rewrite Hcl, Hnm. unfold vi_keys, vi_bucket, vadd. vproj. f_equal; lia. }
    rewrite EV. replace (N.of_nat i + 1) with (N.of_nat (Datatypes.S i)) by lia.
    destruct (IH (Datatypes.S i) (if c =? 0 then tmp else cap)) as (tmp' & Hr & Ht); [lia|].
    exists tmp'. rewrite (run_ebind_ok _ _ _ _ _ Hr). cbv beta iota zeta. split.
    + change (run (pret ?x) w) with (w, Ok x). f_equal. f_equal. f_equal; [f_equal|].
      * cbn [seq map]. f_equal. exact Hnm.
      * f_equal. lia.
    + rewrite Ht. cbn [seq map total]. rewrite Hcl. destruct (N.eqb_spec c 0) as [Ec|Hc0].
      * rewrite Ec, N.add_0_l. reflexivity.
      * replace (c + _ =? 0) with false by lia. destruct (total _ =? 0); reflexivity.
Qed.

(** ** Scanning the data file *)
Definition idx (k : bytes) : N := bucket_index (hash H (db_salt p) k) B M.
Definition at_idx (n : N) (r : drec) : bool := match r with DRec k _ => idx k =? n | SRec _ _ => false end.
Definition sel (lo hi : N) (r : drec) : bool :=
  match r with DRec k _ => (lo <=? idx k) && (idx k <? hi) | SRec _ _ => false end.
Definition rsize (r : drec) : N := match r with DRec _ v => blen v | SRec _ _ => 0 end.
Fixpoint ssum (lo hi : N) (l : list drec) : N :=
  match l with [] => 0 | r :: l => (if sel lo hi r then rsize r else 0) + ssum lo hi l end.

Lemma ssum_app lo hi a b : ssum lo hi (a ++ b) = ssum lo hi a + ssum lo hi b.
Proof using. clear Hq. induction a as [|x a IH]; cbn [app ssum]; lia. Qed.

Lemma nmine_count n : nmine n = count (at_idx n) recs.
Proof using.
  clear Hq.
  unfold VerifyFacts.nmine, dents, placed. generalize dat_hdr_size.
  assert (G : forall l o, blen (filter (mine B M n) (map (Table.entry_of H (db_salt p)) (datas (place o l)))) = count (at_idx n) l).
  { induction l as [|[k v|es sp] l IH]; intros o; [reflexivity| |]; cbn [place datas map filter count at_idx].
    - unfold mine at 1. cbn [Table.entry_of en_hash]. fold (idx k). destruct (idx k =? n); [rewrite blen_cons|]; rewrite IH; lia.
    - rewrite IH. lia. }
  intros o. apply G.
Qed.

Definition vacc (pre : list drec) (tmp : N) (v : vinfo) : vinfo :=
  VInfo (vi_algorithm v) (vi_key_count v) (vi_value_count v + count (sel q (q + bn)) pre)
    (vi_value_bytes v + ssum q (q + bn) pre) (vi_spill_count v)
    (vi_spill_count_tot v + if q =? 0 then count is_srec pre else 0) (vi_spill_bytes v)
    (vi_spill_bytes_tot v + if q =? 0 then count is_srec pre * (8 + bucket_size tmp) else 0) (vi_hist v).

Record finv (tmp : N) (va : vinfo) (pre : list drec) (s : list N * vinfo) : Prop := FInv {
  fi_len : blen (fst s) = bn;
  fi_keys : forall i, i < bn -> nthN (fst s) i 0 + count (at_idx (q + i)) pre = nmine (q + i);
  fi_v : snd s = vacc pre tmp va }.

Lemma count_le {A} (f : A -> bool) a x b : count f (a ++ x :: b) = count f a + (if f x then 1 else 0) + count f b.
Proof using. clear Hq. rewrite count_app. cbn [count]. lia. Qed.

Lemma vf_record_data tmp va pre k v rest s rd :
  recs = pre ++ DRec k v :: rest -> finv tmp va pre s -> at_off d rd (blen (db_hdr p) + blen (enc_recs pre)) ->
  exists s' rd', run (vf_record e kh q (q + bn) pbuf tmp (s, rd)) w = (w, inl (s', rd')) /\
    finv tmp va (pre ++ [DRec k v]) s' /\
    at_off d rd' (blen (db_hdr p) + blen (enc_recs pre) + blen (enc_rec (DRec k v))).
Proof using Hp Hum Hd Hq.
  intros Hrec Hs Hr. destruct s as [nk vv]. destruct Hs as [Hl Hk Hvv]. cbn [fst snd] in *. subst vv.
  pose proof (dk_dat _ _ _ _ _ Hd) as Wd.
  destruct (recs_rec_ok e p recs T w Hum Hd (DRec k v)) as (Hkl & Hv1 & Hv2); [rewrite Hrec; apply in_app_iff; simpl; auto|].
  pose proof (mid_d p recs _ _ _ Hrec) as Ed.
  set (o := blen (db_hdr p) + blen (enc_recs pre)) in *.
  assert (Lo : blen (db_hdr p ++ enc_recs pre) = o) by (unfold o; apply blen_app).
  cbn [enc_rec] in *.
  assert (L6 : blen (wr48 (blen v)) = 6) by apply blen_wr48.
  assert (Ld : blen d = o + 6 + blen k + blen v + blen (enc_recs rest)).
  { rewrite Ed, !blen_app, L6. unfold o. lia. }
  unfold vf_record. rewrite (at_eof _ w Wd _ _ Hr). replace (blen d <=? o) with false by lia.
  destruct (at_prepare d w Wd rd o 6 Hr) as (r1 & Hr1 & Ha1); [lia|].
  assert (E6 : bsub o 6 d = wr48 (blen v)).
  { rewrite Ed. rewrite <- (app_assoc (wr48 _)). apply bsub_app_eq; auto. }
  destruct (at_prepare d w Wd r1 (o + 6) (ks + blen v) Ha1) as (r2 & Hr2 & Ha2); [lia|].
  assert (EK : bsub (o + 6) (ks + blen v) d = k ++ v).
  { assert (Ed2 : d = ((db_hdr p ++ enc_recs pre) ++ wr48 (blen v)) ++ (k ++ v) ++ enc_recs rest)
      by (rewrite Ed, <- !app_assoc; reflexivity).
    rewrite Ed2. apply bsub_app_eq; rewrite blen_app; lia. }
  rewrite run_bind, Hr1, E6. cbv beta iota zeta. rewrite rd_size48_wr48 by lia.
  replace (0 <? blen v) with true by lia. cbn [db_kh kh_key_size].
  rewrite run_bind, Hr2, EK. cbv beta iota zeta.
  rewrite btake_app_eq by lia. cbn [db_kh kh_salt kh_buckets kh_modulus kh_block_size]. fold (idx k).
  assert (Hoff : at_off d r2 (o + blen (wr48 (blen v) ++ k ++ v))).
  { replace (o + blen (wr48 (blen v) ++ k ++ v)) with (o + 6 + (ks + blen v)); auto.
    rewrite !blen_app, L6. lia. }
  destruct (N.ltb_spec (idx k) q) as [L1|L1]; [|destruct (N.leb_spec (q + bn) (idx k)) as [L2|L2]]; cbn [orb].
  1,2: exists (nk, vacc pre tmp va), r2; split; [reflexivity|]; split; [|exact Hoff]; constructor; cbn [fst snd]; auto;
    [intros i Hi; rewrite count_app; cbn [count at_idx]; replace (idx k =? q + i) with false by lia; rewrite <- (Hk i Hi); lia
    |unfold vacc; rewrite !count_app, ssum_app; cbn [count ssum sel is_srec];
     replace ((q <=? idx k) && (idx k <? q + bn)) with false by lia; cbn [rsize]; rewrite !N.add_0_r; reflexivity].
  destruct (chunk_bucket (idx k - q)) as (es & sp & ces & Hn & R & O & Hch & Hperm); [lia|].
  destruct (disk_holds e p recs T w Hd) as [Hho _].
  destruct Hr as (_ & _ & _ & Hro). rewrite Hro.
  assert (Hex : exists en, In en (es ++ ces) /\ en_hash en = hash H (db_salt p) k /\ en_off en = o).
  { exists (Entry o (blen v) (hash H (db_salt p) k)). split; [|split; reflexivity].
    eapply Permutation_in; [symmetry; exact Hperm|]. apply filter_In. split.
    - unfold dents. apply in_map_iff. exists (o, k, v). split; [reflexivity|]. apply datas_In.
      rewrite Hrec. unfold o. rewrite (p_hdr p). apply placed_mid.
    - unfold mine. cbn [en_hash]. fold (idx k). apply N.eqb_eq. lia. }
  rewrite (run_bind_eq _ _ _ _ _ (vfind_ok e bs (p_cap p Hp) (p_bs p Hp) w d P Wd Hho _ es sp ces _ o R O Hch Hex)).
  cbv beta iota.
  pose proof (Hk (idx k - q) ltac:(lia)) as Hki. replace (q + (idx k - q)) with (idx k) in Hki by lia.
  rewrite nmine_count in Hki. pose proof (count_le (at_idx (idx k)) pre (DRec k v) rest) as Hc.
  rewrite <- Hrec in Hc. cbn [at_idx] in Hc. rewrite N.eqb_refl in Hc.
  replace (nthN nk (idx k - q) 0 =? 0) with false by lia.
  eexists _, r2. split; [reflexivity|]. split; [|exact Hoff]. constructor; cbn [fst snd].
  - unfold blen in *. rewrite dec_at_length. exact Hl.
  - intros i Hi. specialize (Hk i Hi). unfold nthN in *. rewrite dec_at_nth, count_app. cbn [count at_idx].
    destruct (Nat.eqb_spec (N.to_nat i) (N.to_nat (idx k - q))) as [Ei|Ei].
    + assert (i = idx k - q) by lia. subst i. replace (q + (idx k - q)) with (idx k) in * by lia. rewrite N.eqb_refl.
      clear - Hki Hc Hk. rewrite nmine_count in *. lia.
    + replace (idx k =? q + i) with false by lia. rewrite N.sub_0_r, !N.add_0_r. exact Hk.
  - unfold vacc, vi_value. vproj. rewrite !count_app, ssum_app. cbn [count ssum sel is_srec rsize].
    replace ((q <=? idx k) && (idx k <? q + bn)) with true by lia. rewrite !N.add_0_r. f_equal; lia.
Qed.

Definition spill_size_ok : bool := bucket_size (bucket_capacity (bucket_size cap)) =? bucket_size cap.

Lemma vf_record_spill tmp va pre es sp rest s rd :
  recs = pre ++ SRec es sp :: rest -> finv tmp va pre s -> at_off d rd (blen (db_hdr p) + blen (enc_recs pre)) ->
  if spill_size_ok then
    exists s' rd', run (vf_record e kh q (q + bn) pbuf tmp (s, rd)) w = (w, inl (s', rd')) /\
    finv tmp va (pre ++ [SRec es sp]) s' /\
    at_off d rd' (blen (db_hdr p) + blen (enc_recs pre) + blen (enc_rec (SRec es sp)))
  else run (vf_record e kh q (q + bn) pbuf tmp (s, rd)) w = (w, inr (Er invalid_spill_size)).
Proof using Hp Hum Hd Hq.
  intros Hrec Hs Hr. destruct s as [nk vv]. destruct Hs as [Hl Hk Hvv]. cbn [fst snd] in *. subst vv.
  pose proof (dk_dat _ _ _ _ _ Hd) as Wd.
  destruct (spill_at e p recs T w Hp Hum Hd _ _ _ _ _ Hrec Hr) as (Heof & r1 & r2 & Hr1 & Hr2 & Ha2 & Hle & EB & EL).
  rewrite EL. clear EL. set (o := blen (db_hdr p) + blen (enc_recs pre)) in *.
  destruct (cap_fits p Hp) as [F1 F2].
  unfold vf_record. rewrite Heof, run_bind, Hr1. cbv beta iota zeta.
  rewrite rd_size48_wr48 by lia. change (0 <? 0) with false. cbv iota.
  rewrite run_bind, Hr2. cbv beta iota zeta. rewrite rd_wr16 by lia.
  fold spill_size_ok. destruct spill_size_ok; cbn [negb]; [|reflexivity].
  destruct (at_prepare d w Wd r2 (o + 8) (bucket_size cap) Ha2) as (r3 & Hr3 & Ha3); [lia|].
  rewrite run_bind, Hr3. cbv beta iota. cbn [run].
  eexists _, r3. split; [reflexivity|]. split.
  - constructor; cbn [fst snd]; auto.
    + intros i Hi. rewrite count_app. cbn [count at_idx]. rewrite <- (Hk i Hi). lia.
    + unfold vacc, vi_spill_rec. rewrite !count_app, ssum_app. cbn [count ssum sel is_srec].
      destruct (q =? 0); vproj; f_equal; lia.
  - replace (o + (8 + bucket_size cap)) with (o + 8 + bucket_size cap) by lia. exact Ha3.
Qed.

Lemma finv_start tmp va : finv tmp va [] (map (fun j => nmine (q + N.of_nat j)) (seq 0 (N.to_nat bn)), va).
Proof using.
  clear Hq.
  constructor; cbn [fst snd].
  - unfold blen. rewrite map_length, seq_length. lia.
  - intros i Hi. cbn [count]. rewrite N.add_0_r. unfold nthN.
    rewrite (nth_indep _ 0 (nmine (q + N.of_nat 0))) by (rewrite map_length, seq_length; lia).
    rewrite (map_nth (fun j => nmine (q + N.of_nat j))). rewrite seq_nth by lia. f_equal. lia.
  - destruct va. unfold vacc. cbn [count ssum]. vproj. destruct (q =? 0); f_equal; lia.
Qed.

Lemma finv_end tmp va s : finv tmp va recs s -> forallb (fun x => x =? 0) (fst s) = true.
Proof using.
  clear Hq.
  intros [Hl Hk _]. apply forallb_forall. intros x Hx. apply (In_nth _ _ 0) in Hx as (i & Hi & <-).
  unfold blen in Hl. specialize (Hk (N.of_nat i) ltac:(lia)). rewrite nmine_count in Hk.
  unfold nthN in Hk. rewrite Nat2N.id in Hk. apply N.eqb_eq. lia.
Qed.

(** The whole scan. *)
Lemma vf_scan tmp va : (spill_size_ok = true \/ count is_srec recs = 0) ->
  exists nk, run (loop (vf_record e kh q (q + bn) pbuf tmp)
      (map (fun j => nmine (q + N.of_nat j)) (seq 0 (N.to_nat bn)), va, br_make FDat dat_hdr_size (blen d) (1024 * bs))) w
    = (w, Ok (nk, vacc recs tmp va)) /\ forallb (fun x => x =? 0) nk = true.
Proof using Hp Hum Hd Hf Hq.
  intros Hsp. pose proof (dk_dat _ _ _ _ _ Hd) as Wd.
  destruct (scan_records w d (db_hdr p) recs Wd eq_refl (vf_record e kh q (q + bn) pbuf tmp) (finv tmp va) (fun s => s))
    with (s := (map (fun j => nmine (q + N.of_nat j)) (seq 0 (N.to_nat bn)), va))
         (rd := br_make FDat dat_hdr_size (blen d) (1024 * bs)) as ([nk v] & Hl & Hv).
  - intros pre r rest s rd Hrec Hs Hr. destruct r as [k v|es sp].
    + eapply vf_record_data; eauto.
    + pose proof (vf_record_spill _ _ _ _ _ _ _ _ Hrec Hs Hr) as X. destruct spill_size_ok; [exact X|].
      exfalso. destruct Hsp as [Hsp|Hsp]; [discriminate|].
      rewrite Hrec, count_app in Hsp. cbn [count is_srec] in Hsp. lia.
  - intros [nk v] rd _ Hr. unfold vf_record. rewrite (at_eof _ w Wd _ _ Hr), N.leb_refl. reflexivity.
  - apply finv_start.
  - apply start_off; auto.
  - exists nk. split; [|exact (finv_end _ _ _ Hv)]. pose proof (fi_v _ _ _ _ Hv) as Ev. cbn [snd] in Ev. rewrite <- Ev.
    eapply loop_run; [exact Hl|]. pose proof (recs_le recs) as X.
    pose proof (d_len e p recs T w Hd Hf) as Y.
    rewrite blen_app, (p_hdr p) in Y. unfold blen in *. unfold dat_hdr_size in Y. lia.
Qed.

(** The scan of a file with spill records of a block size below 116. *)
Lemma first_spill (l : list drec) : count is_srec l <> 0 ->
  exists pre es sp rest, l = pre ++ SRec es sp :: rest /\ count is_srec pre = 0.
Proof using.
  clear Hq.
  induction l as [|[k v|es sp] l IH]; cbn [count is_srec]; intros Hc; [lia| |].
  - destruct IH as (pre & es & sp & rest & -> & X); [lia|]. exists (DRec k v :: pre), es, sp, rest.
    split; [reflexivity|]. cbn [count is_srec]. lia.
  - exists [], es, sp, l. split; reflexivity.
Qed.

Lemma vf_scan_fails tmp va : spill_size_ok = false -> count is_srec recs <> 0 ->
  run (loop (vf_record e kh q (q + bn) pbuf tmp)
      (map (fun j => nmine (q + N.of_nat j)) (seq 0 (N.to_nat bn)), va, br_make FDat dat_hdr_size (blen d) (1024 * bs))) w
    = (w, Er invalid_spill_size).
Proof using Hp Hum Hd Hf Hq.
  intros Hsp Hc. destruct (first_spill recs Hc) as (stop & es & sp & rest & Hrec & H0).
  destruct (scan_to w d (db_hdr p) recs (vf_record e kh q (q + bn) pbuf tmp) (finv tmp va) (Er invalid_spill_size) 1 stop eq_refl)
    with (after := SRec es sp :: rest) (s := (map (fun j => nmine (q + N.of_nat j)) (seq 0 (N.to_nat bn)), va))
         (rd := br_make FDat dat_hdr_size (blen d) (1024 * bs)) as (n & Hn & Hl).
  - intros pre x rest' s rd Hrec' Hlen Hs Hr. destruct x as [k v|es' sp'].
    + eapply vf_record_data; eauto.
    + exfalso. assert (X : exists l, stop = pre ++ SRec es' sp' :: l).
      { rewrite Hrec' in Hrec. clear - Hrec Hlen. revert stop Hrec Hlen.
        induction pre as [|y pre IH]; intros [|z stop] Hrec Hlen; cbn [app length] in *; try lia.
        - injection Hrec; intros; subst. eauto.
        - injection Hrec; intros Hr Hz. destruct (IH stop Hr) as (l & ->); [lia|]. subst. eauto. }
      destruct X as (l & ->). rewrite count_app in H0. cbn [count is_srec] in H0. lia.
  - intros s rd Hs Hr. exists 1%nat. split; [lia|]. constructor.
    pose proof (vf_record_spill _ _ _ _ _ _ _ _ Hrec Hs Hr) as X. rewrite Hsp in X. exact X.
  - exact Hrec.
  - apply finv_start.
  - apply start_off; auto.
  - eapply loop_run; [exact Hl|]. pose proof (recs_le recs) as X.
    pose proof (d_len e p recs T w Hd Hf) as Y.
    assert (Z : (length stop <= length recs)%nat) by (rewrite Hrec, app_length; lia).
    rewrite blen_app, (p_hdr p) in Y. unfold blen in *. unfold dat_hdr_size in Y. lia.
Qed.
End Pass.

(** ** All passes *)

Lemma sel_split a b c l : a <= b -> b <= c -> count (sel a c) l = count (sel a b) l + count (sel b c) l.
Proof using.
  intros H1 H2. induction l as [|[k v|es sp] l IH]; cbn [count]; [reflexivity| |cbn [sel]; lia].
  rewrite IH. cbn [sel]. clear IH.
  destruct (N.leb_spec a (idx k)), (N.leb_spec b (idx k)), (N.ltb_spec (idx k) b), (N.ltb_spec (idx k) c);
    cbn [andb]; try lia.
Qed.
Lemma ssum_split a b c l : a <= b -> b <= c -> ssum a c l = ssum a b l + ssum b c l.
Proof using.
  intros H1 H2. induction l as [|[k v|es sp] l IH]; cbn [ssum]; [reflexivity| |cbn [sel]; lia].
  rewrite IH. cbn [sel]. clear IH.
  destruct (N.leb_spec a (idx k)), (N.leb_spec b (idx k)), (N.ltb_spec (idx k) b), (N.ltb_spec (idx k) c);
    cbn [andb]; try lia.
Qed.
Lemma sel_none l : count (sel 0 0) l = 0.
Proof using.
  induction l as [|[k v|es sp] l IH]; [reflexivity| |]; cbn [count sel]; rewrite IH; [|reflexivity].
  replace (idx k <? 0) with false by lia. rewrite andb_false_r. reflexivity.
Qed.
Lemma ssum_none l : ssum 0 0 l = 0.
Proof using.
  induction l as [|[k v|es sp] l IH]; [reflexivity| |]; cbn [ssum sel]; rewrite IH; [|reflexivity].
  replace (idx k <? 0) with false by lia. rewrite andb_false_r. reflexivity.
Qed.
Lemma idx_lt k : idx k < B.
Proof using Hp Hum Hd. apply bucket_index_lt. apply (disk_pow e p Hp recs T w Hd). Qed.
Lemma sel_all l : count (sel 0 B) l = blen (kvs l).
Proof using Hp Hum Hd.
  induction l as [|[k v|es sp] l IH]; [reflexivity| |]; cbn [count sel kvs]; [|rewrite IH; lia].
  pose proof (idx_lt k). replace (0 <=? idx k) with true by lia. replace (idx k <? B) with true by lia.
  cbn [andb]. rewrite blen_cons, IH. lia.
Qed.
Lemma ssum_all l : ssum 0 B l = vbytes l.
Proof using Hp Hum Hd.
  unfold vbytes. induction l as [|[k v|es sp] l IH]; [reflexivity| |]; cbn [ssum sel kvs map total];
    [|rewrite IH; lia].
  pose proof (idx_lt k). replace (0 <=? idx k) with true by lia. replace (idx k <? B) with true by lia.
  cbn [andb rsize snd]. rewrite IH. lia.
Qed.

Definition vbase (n tot : N) : vinfo :=
  VInfo 1 0 (count (sel 0 n) recs) (ssum 0 n recs) 0 (if n =? 0 then 0 else count is_srec recs) 0 tot (repeat 0 10).

Lemma vacc_v2 q bn tmp n va : vacc q bn recs tmp (v2 n va) = v2 n (vacc q bn recs tmp va).
Proof using. reflexivity. Qed.

Lemma vacc_base q bn tmp tot : 0 < bn -> (q = 0 -> tot = 0) ->
  vacc q bn recs tmp (vbase q tot) =
  vbase (q + bn) (if q =? 0 then count is_srec recs * (8 + bucket_size tmp) else tot).
Proof using.
  intros H0 Ht. unfold vacc, vbase. vproj. replace (q + bn =? 0) with false by lia.
  rewrite (sel_split 0 q (q + bn)), (ssum_split 0 q (q + bn)) by lia.
  destruct (N.eqb_spec q 0) as [E0|E0]; [rewrite Ht by exact E0|]; f_equal; lia.
Qed.

Lemma vbase_end tot : v2 (N.to_nat B) (vbase B tot) = vtrue e p recs T 1 tot.
Proof using Hp Hum Hd.
  unfold VerifyFacts.v2, vbase, vtrue. vproj. destruct (disk_pow e p Hp recs T w Hd) as (X & _).
  replace (B =? 0) with false by lia.
  rewrite (total_mine e p recs T w Hp Hum Hd), blen_dents, sel_all, ssum_all. f_equal; lia.
Qed.

Section Chunk.
Variable chunk : N.
Hypothesis Hchunk : 0 < chunk.

Definition ptmp (q tmp : N) : N :=
  if total (map (fun j => clen (q + N.of_nat j)) (seq 0 (N.to_nat (N.min (q + chunk) B - q)))) =? 0 then tmp else cap.

Lemma vf_pass_ok q tmp tot : q < B -> (q = 0 -> tot = 0) -> (spill_size_ok = true \/ count is_srec recs = 0) ->
  run (vf_pass e kh (blen d) chunk (q, tmp, v2 (N.to_nat q) (vbase q tot))) w =
  (w, inl (q + chunk, ptmp q tmp, v2 (N.to_nat (N.min (q + chunk) B)) (vbase (N.min (q + chunk) B)
     (if q =? 0 then count is_srec recs * (8 + bucket_size (ptmp q tmp)) else tot)))).
Proof using Hp Hum Hd Hf Hchunk.
  intros Hq Ht Hsp. unfold vf_pass. cbn [db_kh kh_block_size kh_buckets]. cbv zeta.
  replace (q <? B) with true by lia.
  set (bn := N.min (q + chunk) B - q). assert (Hbn : q + bn <= B) by lia. assert (H0 : 0 < bn) by lia.
  replace (N.min (q + chunk) B) with (q + bn) by lia.
  rewrite (run_bind_eq _ _ _ _ _ (read_chunk q bn Hbn)). cbv beta iota.
  destruct (vf_count_ok q bn Hbn (vbase q tot) (N.to_nat bn) 0 tmp eq_refl) as (tmp' & Hc & Et).
  change (N.of_nat 0) with 0 in Hc. rewrite !Nat.add_0_r in Hc.
  rewrite (run_bind_eq _ _ _ _ _ Hc). cbv beta iota.
  change tmp' with tmp' in Et. fold bn. replace (ptmp q tmp) with tmp' by (rewrite Et; unfold ptmp; fold bn; reflexivity).
  destruct (vf_scan q bn Hbn tmp' (v2 (N.to_nat q + N.to_nat bn) (vbase q tot)) Hsp) as (nk & Hs & Hz).
  rewrite (run_bind_eq _ _ _ _ _ Hs). cbv beta iota. rewrite Hz. cbn [run].
  rewrite vacc_v2, vacc_base by auto. replace (N.to_nat q + N.to_nat bn)%nat with (N.to_nat (q + bn)) by lia. reflexivity.
Qed.

Lemma vf_pass_fails tmp v : spill_size_ok = false -> count is_srec recs <> 0 ->
  run (vf_pass e kh (blen d) chunk (0, tmp, v)) w = (w, inr (Er invalid_spill_size)).
Proof using Hp Hum Hd Hf Hchunk.
  intros Hsp Hc0. unfold vf_pass. cbn [db_kh kh_block_size kh_buckets]. cbv zeta.
  destruct (disk_pow e p Hp recs T w Hd) as (X & _).
  replace (0 <? B) with true by lia.
  set (bn := N.min (0 + chunk) B - 0). assert (Hbn : 0 + bn <= B) by lia.
  replace (N.min (0 + chunk) B) with (0 + bn) by lia.
  rewrite (run_bind_eq _ _ _ _ _ (read_chunk 0 bn Hbn)). cbv beta iota.
  destruct (vf_count_ok 0 bn Hbn v (N.to_nat bn) 0 tmp eq_refl) as (tmp' & Hc & Et).
  change (N.of_nat 0) with 0 in Hc. change (N.to_nat 0) with 0%nat in Hc. rewrite Nat.add_0_l, v2_0 in Hc.
  rewrite (run_bind_eq _ _ _ _ _ Hc). cbv beta iota.
  rewrite (run_bind_eq _ _ _ _ _ (vf_scan_fails 0 bn Hbn tmp' _ Hsp Hc0)). reflexivity.
Qed.

Lemma vf_passes tot : (spill_size_ok = true \/ count is_srec recs = 0) ->
  forall k q tmp, 0 < q -> (N.to_nat (B - q) <= k)%nat ->
  exists n, (n <= k + 1)%nat /\
    loops (vf_pass e kh (blen d) chunk) n (q, tmp, v2 (N.to_nat (N.min q B)) (vbase (N.min q B) tot)) w w
      (Ok (vtrue e p recs T 1 tot)).
Proof using Hp Hum Hd Hf Hchunk.
  intros Hsp. induction k as [|k IH]; intros q tmp H0 Hk; (destruct (N.ltb_spec q B) as [Hq|Hq];
    [|exists 1%nat; split; [lia|]; constructor; unfold vf_pass; cbn [db_kh kh_buckets];
      replace (q <? B) with false by lia; replace (N.min q B) with B by lia; cbn [run]; rewrite vbase_end; reflexivity]).
  - lia.
  - destruct (IH (q + chunk) (ptmp q tmp)) as (n & Hn & Hl); [lia|lia|].
    exists (Datatypes.S n). split; [lia|]. replace (N.min q B) with q by lia.
    eapply loops_more; [apply vf_pass_ok; auto; lia|]. replace (q =? 0) with false by lia. exact Hl.
Qed.

Lemma vf_all tmp : (spill_size_ok = true \/ count is_srec recs = 0) ->
  run (loop (vf_pass e kh (blen d) chunk) (0, tmp, vinfo0 1)) w =
  (w, Ok (vtrue e p recs T 1 (count is_srec recs * (8 + bucket_size (ptmp 0 tmp))))).
Proof using Hp Hum Hd Hf Hchunk.
  intros Hsp. destruct (disk_pow e p Hp recs T w Hd) as (X & Y & _).
  assert (V0 : v2 (N.to_nat 0) (vbase 0 0) = vinfo0 1).
  { change (N.to_nat 0) with 0%nat. rewrite v2_0. unfold vbase. rewrite sel_none, ssum_none. reflexivity. }
  pose proof (vf_pass_ok 0 tmp 0 ltac:(lia) (fun _ => eq_refl) Hsp) as H1. rewrite V0 in H1.
  change (0 =? 0) with true in H1. cbv iota in H1.
  destruct (vf_passes (count is_srec recs * (8 + bucket_size (ptmp 0 tmp))) Hsp (N.to_nat B) (0 + chunk) (ptmp 0 tmp))
    as (n & Hn & Hl); [lia|lia|].
  eapply loop_run; [eapply loops_more; [exact H1|exact Hl]|]. lia.
Qed.
End Chunk.

(** The result of verify_fast. *)
Lemma verify_chunk_pos buf : 2 * bs + 8 <= buf -> 0 < verify_chunk kh buf.
Proof using Hp Hum Hd.
  intros Hb. unfold verify_chunk. cbn [db_kh kh_block_size kh_buckets]. cbv zeta.
  replace (2 * bs + 8 <=? buf) with true by lia. destruct (disk_pow e p Hp recs T w Hd) as (X & _).
  assert (1 <= (buf - bs) / (bs + 8)) by (apply N.div_le_lower_bound; lia). lia.
Qed.

Definition tmp_size (buf : N) : N := ptmp (verify_chunk kh buf) 0 (bk_size (bk_of_blob (fresh e bs))).

Lemma verify_fast_ok buf : 2 * bs + 8 <= buf -> (spill_size_ok = true \/ count is_srec recs = 0) ->
  run (verify_fast e kh (blen d) buf) w =
  (w, Ok (vtrue e p recs T 1 (count is_srec recs * (8 + bucket_size (tmp_size buf))))).
Proof using Hp Hum Hd Hf.
  intros Hb Hsp. unfold verify_fast. change (kh_block_size kh) with bs.
  replace (buf <? 2 * bs + 8) with false by lia. apply vf_all; auto. apply verify_chunk_pos; auto.
Qed.

Lemma verify_fast_fails buf : 2 * bs + 8 <= buf -> spill_size_ok = false -> count is_srec recs <> 0 ->
  run (verify_fast e kh (blen d) buf) w = (w, Er invalid_spill_size).
Proof using Hp Hum Hd Hf.
  intros Hb Hsp Hc. unfold verify_fast. change (kh_block_size kh) with bs.
  replace (buf <? 2 * bs + 8) with false by lia. eapply loop_run with (n := 1%nat).
  - constructor. apply vf_pass_fails; auto. apply verify_chunk_pos; auto.
  - lia.
Qed.

Lemma tmp_size_whole buf : 2 * bs + 8 <= buf -> B * (bs + 8) + bs <= buf -> 0 < total (lens (N.to_nat B)) ->
  tmp_size buf = cap.
Proof using Hp Hum Hd.
  intros H2 Hb Ht. unfold tmp_size, ptmp. replace (N.min (0 + verify_chunk kh buf) B - 0) with B.
  - replace (map _ (seq 0 (N.to_nat B))) with (lens (N.to_nat B)).
    + replace (total _ =? 0) with false by lia. reflexivity.
    + unfold VerifyFacts.lens, upto. rewrite map_map. reflexivity.
  - unfold verify_chunk. cbn [db_kh kh_block_size kh_buckets]. cbv zeta.
    replace (2 * bs + 8 <=? buf) with true by lia.
    assert (B <= (buf - bs) / (bs + 8)) by (apply N.div_le_lower_bound; lia). lia.
Qed.
End Db.
