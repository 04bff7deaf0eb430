(** verify() of a well-formed database. *)
From Verif Require Import Model.Bytes Model.Err Model.Field Model.Format Model.IO
  Model.BulkIO Model.Bucket Model.Pool Model.Recover Model.Create Model.Store Model.History Model.Visit
  Model.Verify Model.Events
  Proofs.BytesFacts Proofs.FieldFacts Proofs.IOFacts Proofs.PoolFacts Proofs.BucketFacts
  Proofs.BulkFacts Proofs.HashFacts Proofs.Table Proofs.Lookup Proofs.SplitFacts
  Proofs.CommitFacts Proofs.CommitInv Proofs.CommitRun Proofs.HeaderFacts Proofs.StoreInv
  Proofs.OpenFacts Proofs.RecoverFacts
  Proofs.FormatFacts Proofs.RefuseFacts Proofs.VisitFacts Proofs.WrittenFacts
  Spec SpecFormat SpecHeader SpecVisit SpecVerify.

(** ** Counting *)
Lemma total_app a b : total (a ++ b) = total a + total b.
Proof. induction a as [|x a IH]; cbn [app total]; lia. Qed.
Lemma count_app {A} (f : A -> bool) a b : count f (a ++ b) = count f a + count f b.
Proof. induction a as [|x a IH]; cbn [app count]; lia. Qed.

Lemma perm_blen {A} (a b : list A) : Permutation a b -> blen a = blen b.
Proof. intros X. unfold blen. rewrite (Permutation_length X). reflexivity. Qed.

Definition is_srec (r : drec) : bool := match r with SRec _ _ => true | DRec _ _ => false end.
Definition vbytes (recs : list drec) : N := total (map (fun x => blen (snd x)) (kvs recs)).

Lemma vbytes_app a b : vbytes (a ++ b) = vbytes a + vbytes b.
Proof. unfold vbytes. rewrite kvs_app, map_app, total_app. reflexivity. Qed.

(** The histogram. *)
Definition bumps (lens : list N) (h : list N) : list N :=
  fold_left (fun h c => hist_bump (N.to_nat (N.min c 9)) h) lens h.

Lemma hist_bump_nth l : forall n i, (n < length l)%nat ->
  nth i (hist_bump n l) 0 = nth i l 0 + (if (i =? n)%nat then 1 else 0).
Proof.
  induction l as [|x l IH]; intros [|n] [|i] Hn; cbn [length hist_bump nth Nat.eqb] in *; try lia.
  apply IH. lia.
Qed.
Lemma hist_bump_length l : forall n, length (hist_bump n l) = length l.
Proof. induction l as [|x l IH]; intros [|n]; cbn; auto. Qed.

Lemma bumps_length lens : forall h, length (bumps lens h) = length h.
Proof.
  induction lens as [|c lens IH]; intros h; [reflexivity|]. cbn [bumps fold_left].
  fold (bumps lens (hist_bump (N.to_nat (N.min c 9)) h)). rewrite IH, hist_bump_length. reflexivity.
Qed.
Lemma bumps_nth lens : forall h i, length h = 10%nat ->
  nth i (bumps lens h) 0 = nth i h 0 + count (fun n => N.min n 9 =? N.of_nat i) lens.
Proof.
  induction lens as [|c lens IH]; intros h i Hh.
  - cbn [bumps fold_left count]. lia.
  - cbn [bumps fold_left count]. fold (bumps lens (hist_bump (N.to_nat (N.min c 9)) h)).
    rewrite IH by (rewrite hist_bump_length; auto).
    rewrite hist_bump_nth by (rewrite Hh; lia).
    destruct (Nat.eqb_spec i (N.to_nat (N.min c 9))); destruct (N.eqb_spec (N.min c 9) (N.of_nat i)); lia.
Qed.
Lemma bumps_spec lens :
  bumps lens (repeat 0 10) = map (fun i => count (fun n => N.min n 9 =? i) lens) [0; 1; 2; 3; 4; 5; 6; 7; 8; 9].
Proof.
  apply (nth_ext _ _ 0 0).
  - rewrite bumps_length. reflexivity.
  - intros i Hi. rewrite bumps_length in Hi. change (length (repeat 0 10)) with 10%nat in Hi.
    rewrite bumps_nth by reflexivity.
    do 10 (destruct i as [|i]; [reflexivity|]). lia.
Qed.
Lemma bumps_app a b h : bumps (a ++ b) h = bumps b (bumps a h).
Proof. unfold bumps. apply fold_left_app. Qed.

(** ** The search along a chain *)
Lemma tail_hash es h i :
  ssorted es -> lb es h <= i -> i < blen es -> en_hash (nthN es i en0) <> h ->
  forall en, In en (bdrop i es) -> en_hash en <> h.
Proof.
  intros Hs Hi Hl Hne en Hin.
  destruct (bdrop_In_nth _ _ en0 _ Hin) as (j & H1 & H2 & ->).
  pose proof (lb_above es h i Hs Hi Hl). pose proof (ssorted_nth es i j Hs H1 H2). lia.
Qed.
Lemma bdrop_lb es h en : ssorted es -> In en es -> en_hash en = h -> In en (bdrop (lb es h) es).
Proof.
  intros Hs Hin Hh. rewrite <- (btake_bdrop (lb es h) es) in Hin.
  apply in_app_iff in Hin as [Hin|Hin]; auto. exfalso.
  apply (In_nth _ _ en0) in Hin as (j & Hj & E).
  unfold btake in E, Hj. rewrite firstn_length in Hj.
  assert (E' : nthN es (N.of_nat j) en0 = en).
  { unfold nthN. rewrite Nat2N.id, <- E.
    rewrite <- (firstn_skipn (N.to_nat (lb es h)) es) at 1. rewrite app_nth1; auto.
    rewrite firstn_length. lia. }
  pose proof (lb_below es h (N.of_nat j) ltac:(lia)) as H0. rewrite E' in H0. lia.
Qed.

Section Find.
Variables (e : env) (bs : N).
Hypothesis Hcap : 1 <= bucket_capacity bs.
Hypothesis Hbs : bs <= 65535.
Variables (w : world) (d : bytes) (P : list (N * drec)).
Hypothesis Hw : wget w FDat = Some d.
Hypothesis Hd : holds d P.

Lemma vfind_scan_ok b es sp h o fuel i :
  bk_rep bs b es sp -> ssorted es -> lb es h <= i -> i <= blen es -> fuel = N.to_nat (blen es - i) ->
  (exists en, In en (bdrop i es) /\ en_hash en = h /\ en_off en = o) ->
  vfind_scan fuel h o b i = true.
Proof using Hcap Hbs.
  intros Hb Hs Hi. revert i Hi. induction fuel as [|fuel IH]; intros i Hi Hle Hf (en & Hin & Hh & Ho).
  - exfalso. rewrite bdrop_all in Hin by lia. destruct Hin.
  - assert (Hlt : i < blen es) by lia.
    cbn [vfind_scan]; cbv zeta. rewrite (bk_at_rep _ _ _ _ _ Hb Hlt).
    destruct (N.eqb_spec (en_hash (nthN es i en0)) h) as [E|E]; cbn [negb].
    + destruct (N.eqb_spec (en_off (nthN es i en0)) o); [reflexivity|].
      apply IH; try lia. exists en. rewrite (bdrop_nth _ _ en0 Hlt) in Hin.
      destruct Hin as [Hin|Hin]; [subst en; congruence|]. auto.
    + exfalso. exact (tail_hash es h i Hs Hi Hlt E en Hin Hh).
Qed.

Lemma vfind_step_found b es sp h o :
  bk_rep bs b es sp -> ents_ok es -> (exists en, In en es /\ en_hash en = h /\ en_off en = o) ->
  run (vfind_step e bs h o b) w = (w, inr (Ok tt)).
Proof using Hcap Hbs.
  intros Hb Hes (en & Hin & Hh & Ho). unfold vfind_step.
  rewrite (rep_size _ _ _ _ Hb). pose proof (rep_cap _ _ _ _ Hb).
  replace (bucket_capacity bs <? blen es) with false by lia. cbv zeta.
  rewrite (lower_bound_rep _ _ _ _ _ Hb (proj1 Hes)).
  rewrite (vfind_scan_ok b es sp h o _ (lb es h) Hb (proj1 Hes)); auto using lb_le; try lia.
  exists en. split; auto. apply bdrop_lb; auto. apply Hes.
Qed.

Lemma vfind_loop b es sp ces h o :
  bk_rep bs b es sp -> ents_ok es -> chain bs P sp ces ->
  (exists en, In en (es ++ ces) /\ en_hash en = h /\ en_off en = o) ->
  exists n, loops (vfind_step e bs h o) n b w w (Ok tt) /\ N.of_nat n <= sp + 1.
Proof using Hcap Hbs Hw Hd.
  intros Hb Hes Hch. revert b es Hb Hes.
  induction Hch as [|sp es2 sp' ces H8 Hsp Hin Hlen Hok Hlt Hch IH]; intros b es Hb Hes (en & Hen & Hh & Ho).
  - rewrite app_nil_r in Hen. exists 1%nat. split; [|lia].
    constructor. eapply vfind_step_found; eauto.
  - pose proof (rep_cap _ _ _ _ Hb) as Hc.
    destruct (vfind_scan (N.to_nat (blen es - lb es h)) h o b (lb es h)) eqn:Es.
    + exists 1%nat. split; [|lia]. constructor. unfold vfind_step.
      rewrite (rep_size _ _ _ _ Hb). replace (bucket_capacity bs <? blen es) with false by lia. cbv zeta.
      rewrite (lower_bound_rep _ _ _ _ _ Hb (proj1 Hes)), Es. reflexivity.
    + apply in_app_iff in Hen as [Hen|Hen].
      { rewrite (vfind_scan_ok b es sp h o _ (lb es h) Hb (proj1 Hes)) in Es; auto using lb_le; try lia.
        exists en. split; auto. apply bdrop_lb; auto. apply Hes. }
      destruct (read_spill bs e d P w sp es2 sp') as (b2 & Hb2 & Hrep2); auto; [lia|].
      destruct (IH b2 es2 Hrep2 Hok (ex_intro _ en (conj Hen (conj Hh Ho)))) as (n & Hloop & Hn).
      exists (Datatypes.S n). split; [|lia]. econstructor; [|exact Hloop]. unfold vfind_step.
      rewrite (rep_size _ _ _ _ Hb). replace (bucket_capacity bs <? blen es) with false by lia. cbv zeta.
      rewrite (lower_bound_rep _ _ _ _ _ Hb (proj1 Hes)), Es, (rep_spill _ _ _ _ Hb).
      replace (sp =? 0) with false by lia.
      rewrite (run_bind_eq _ _ _ _ _ Hb2). reflexivity.
Qed.

Lemma vfind_ok b es sp ces h o :
  bk_rep bs b es sp -> ents_ok es -> chain bs P sp ces ->
  (exists en, In en (es ++ ces) /\ en_hash en = h /\ en_off en = o) ->
  run (vfind e bs h o b) w = (w, Ok tt).
Proof using Hcap Hbs Hw Hd.
  intros Hb Hes Hch Hex. destruct (vfind_loop b es sp ces h o) as (n & Hl & Hn); auto.
  eapply loop_run; [exact Hl|]. apply chain_lt in Hch. lia.
Qed.
End Find.

(** ** Scanning the records of a data file *)
Section Scan.
Variables (w : world) (d : bytes) (hdr : bytes) (recs : list drec).
Hypothesis Hw : wget w FDat = Some d.
Hypothesis Hd : d = hdr ++ enc_recs recs.

Lemma scan_records {St R} (step : St * breader -> prog (St * breader + res R))
    (Inv : list drec -> St -> Prop) (fin : St -> R) :
  (forall pre r rest s rd, recs = pre ++ r :: rest -> Inv pre s ->
    at_off d rd (blen hdr + blen (enc_recs pre)) ->
    exists s' rd', run (step (s, rd)) w = (w, inl (s', rd')) /\ Inv (pre ++ [r]) s' /\
      at_off d rd' (blen hdr + blen (enc_recs pre) + blen (enc_rec r))) ->
  (forall s rd, Inv recs s -> at_off d rd (blen d) -> run (step (s, rd)) w = (w, inr (Ok (fin s)))) ->
  forall s rd, Inv [] s -> at_off d rd (blen hdr) ->
  exists s', loops step (length recs + 1) (s, rd) w w (Ok (fin s')) /\ Inv recs s'.
Proof using Hw Hd.
  intros Hs He s rd Hi Hr.
  assert (G : forall rest pre s rd, recs = pre ++ rest -> Inv pre s ->
    at_off d rd (blen hdr + blen (enc_recs pre)) ->
    exists s', loops step (length rest + 1) (s, rd) w w (Ok (fin s')) /\ Inv recs s').
  { clear s rd Hi Hr. induction rest as [|r rest IH]; intros pre s rd Hrec Hi Hr.
    - rewrite app_nil_r in Hrec. subst pre. exists s. split; auto. constructor. apply He; auto.
      rewrite Hd at 2. rewrite blen_app. exact Hr.
    - destruct (Hs pre r rest s rd Hrec Hi Hr) as (s1 & rd1 & H1 & H2 & H3).
      destruct (IH (pre ++ [r]) s1 rd1) as (s2 & H4 & H5); auto.
      + rewrite <- app_assoc. exact Hrec.
      + rewrite enc_recs_app, blen_app. unfold enc_recs at 2. cbn [flat_map]. rewrite app_nil_r.
        rewrite N.add_assoc. exact H3.
      + exists s2. split; auto. cbn [length Nat.add]. eapply loops_more; eauto. }
  apply (G recs []); auto. unfold enc_recs. cbn [flat_map]. rewrite blen_nil, N.add_0_r. exact Hr.
Qed.

Lemma recs_le (l : list drec) : 6 * blen l <= blen (enc_recs l).
Proof.
  induction l as [|r l IH]; [change (blen (enc_recs [])) with 0; change (blen (@nil drec)) with 0; lia|].
  change (enc_recs (r :: l)) with (enc_rec r ++ enc_recs l). rewrite blen_app, blen_cons.
  pose proof (enc_rec_len r). lia.
Qed.
End Scan.

(** Placing the records of a prefix. *)
Lemma placed_mid pre r rest : In (dat_hdr_size + blen (enc_recs pre), r) (placed (pre ++ r :: rest)).
Proof. rewrite placed_app. apply in_app_iff. right. left. reflexivity. Qed.

Section Db.
Variables (e : env) (p : dbp) (recs : list drec) (T : list bent) (w : world).
Hypothesis Hp : dbp_ok p.
Hypothesis Hum : unmixed p.
Hypothesis Hd : disk e p recs T w.
Hypothesis Hf : files_fit w.
Notation bs := (db_block_size p).
Notation ks := (db_key_size p).
Notation B := (blen T).
Notation M := (ceil_pow2 (blen T)).
Notation kh := (db_kh e p (blen T)).
Notation H := (e_hasher e).
Notation d := (db_hdr p ++ enc_recs recs).
Notation cap := (bucket_capacity bs).
Notation P := (placed recs).
Notation E := (dents e p recs).

Lemma d_len : blen d < 18446744073709551616.
Proof using Hd Hf. apply (Hf FDat). apply Hd. Qed.

Lemma recs_rec_ok r : In r recs -> rec_ok ks bs r.
Proof using Hd Hum.
  intros Hin. pose proof (dk_recs _ _ _ _ _ Hd) as X. rewrite Forall_forall in X.
  destruct (X _ Hin) as [Y|[Y _]]; [exact Y|unfold unmixed in Hum; congruence].
Qed.

Lemma mid_d pre r rest : recs = pre ++ r :: rest ->
  d = (db_hdr p ++ enc_recs pre) ++ enc_rec r ++ enc_recs rest.
Proof using. intros Hr. rewrite Hr, enc_recs_app. cbn [enc_recs flat_map]. rewrite <- !app_assoc. reflexivity. Qed.

(** Bucket [n] with its chain. *)
Lemma bucket_at n : n < B ->
  exists b es sp ces, run (bk_read (fresh e bs) FKey ((n + 1) * bs)) w = (w, Ok b) /\
    nthN T n b0 = (es, sp) /\ bk_rep bs b es sp /\ ents_ok es /\ chain bs P sp ces /\
    Permutation (es ++ ces) (filter (mine B M n) E).
Proof using Hp Hum Hd.
  intros Hn. destruct (disk_pow e p Hp recs T w Hd) as (_ & _ & _ & Ht).
  destruct (read_key_bucket e kh (db_thresh p) (p_cap p Hp) (p_bs p Hp) eq_refl (p_thresh p) (db_hdr p) (db_kb e p) T
    (p_hdr p) (p_kb e p Hp) (disk_bent e p recs T w Hd B) T w n (dk_key _ _ _ _ _ Hd) (disk_bent e p recs T w Hd B) Hn) as (b & Hr & R).
  destruct (ti_b _ _ _ _ _ Ht n Hn) as [O C _ (ces & Hch & Hperm)].
  exists b, (fst (nthN T n b0)), (snd (nthN T n b0)), ces.
  split; [exact Hr|]. split; [destruct (nthN T n b0); reflexivity|]. auto.
Qed.

(** The length of the chain. *)
Definition clen (n : N) : N := (blen (filter (mine B M n) E) - blen (fst (nthN T n b0))) / cap.

Lemma chain_count P' sp ces : chain bs P' sp ces -> exists c, blen ces = c * cap.
Proof using.
  induction 1 as [|sp es sp' ces H8 Hsp Hin Hlen Hok Hlt Hch (c & IH)].
  - exists 0. reflexivity.
  - exists (c + 1). rewrite blen_app, Hlen, IH. lia.
Qed.

Lemma clen_chain n es sp ces c : n < B -> nthN T n b0 = (es, sp) ->
  Permutation (es ++ ces) (filter (mine B M n) E) -> blen ces = c * cap -> clen n = c.
Proof using Hp Hum Hd.
  intros Hn Hnth Hperm Hc. unfold clen. rewrite Hnth. cbn [fst].
  rewrite <- (perm_blen _ _ Hperm), blen_app.
  replace (blen es + blen ces - blen es) with (c * cap) by lia.
  apply N.div_mul. pose proof (p_cap p Hp). lia.
Qed.

(** ** verify_normal: the data file *)
Definition v1 (alg : N) (pre : list drec) : vinfo :=
  VInfo alg 0 (blen (kvs pre)) (vbytes pre) 0 (count is_srec pre) 0
    (count is_srec pre * (8 + bucket_size cap)) (repeat 0 10).

Lemma kvs_snoc_d pre k v : kvs (pre ++ [DRec k v]) = kvs pre ++ [(k, v)].
Proof using. apply kvs_app. Qed.

Lemma vn_record_data pre k v rest rd :
  recs = pre ++ DRec k v :: rest -> at_off d rd (blen (db_hdr p) + blen (enc_recs pre)) ->
  exists rd', run (vn_record e kh (v1 0 pre, rd)) w = (w, inl (v1 0 (pre ++ [DRec k v]), rd')) /\
    at_off d rd' (blen (db_hdr p) + blen (enc_recs pre) + blen (enc_rec (DRec k v))).
Proof using Hp Hum Hd.
  intros Hrec Hr. pose proof (dk_dat _ _ _ _ _ Hd) as Wd.
  destruct (recs_rec_ok (DRec k v)) as (Hk & Hv1 & Hv2); [rewrite Hrec; apply in_app_iff; simpl; auto|].
  pose proof (mid_d _ _ _ Hrec) as Ed.
  set (o := blen (db_hdr p) + blen (enc_recs pre)) in *.
  assert (Lo : blen (db_hdr p ++ enc_recs pre) = o) by (unfold o; apply blen_app).
  cbn [enc_rec] in *.
  assert (L6 : blen (wr48 (blen v)) = 6) by apply blen_wr48.
  assert (Ld : blen d = o + 6 + blen k + blen v + blen (enc_recs rest)).
  { rewrite Ed, !blen_app, L6. unfold o. lia. }
  unfold vn_record. rewrite (at_eof _ w Wd _ _ Hr). replace (blen d <=? o) with false by lia.
  destruct (at_prepare d w Wd rd o 6 Hr) as (r1 & Hr1 & Ha1); [lia|].
  assert (E6 : bsub o 6 d = wr48 (blen v)).
  { rewrite Ed. rewrite <- (app_assoc (wr48 _)). apply bsub_app_eq; auto. }
  destruct (at_prepare d w Wd r1 (o + 6) (ks + blen v) Ha1) as (r2 & Hr2 & Ha2); [lia|].
  assert (EK : bsub (o + 6) (ks + blen v) d = k ++ v).
  { assert (Ed2 : d = ((db_hdr p ++ enc_recs pre) ++ wr48 (blen v)) ++ (k ++ v) ++ enc_recs rest)
      by (rewrite Ed, <- !app_assoc; reflexivity).
    rewrite Ed2. apply bsub_app_eq; rewrite blen_app; lia. }
  exists r2. split.
  - rewrite run_bind, Hr1, E6. cbv beta iota zeta. rewrite rd_size48_wr48 by lia.
    replace (0 <? blen v) with true by lia. cbn [db_kh kh_key_size].
    rewrite run_bind, Hr2, EK. cbv beta iota zeta.
    rewrite btake_app_eq by lia. cbn [db_kh kh_salt kh_buckets kh_modulus kh_block_size].
    destruct (locate e p Hp recs T w k B Hd Hk) as (b & es & sp & ces & Hb & R & O & Hch & Hli & Hall).
    rewrite (run_bind_eq _ _ _ _ _ Hb). cbv beta iota.
    destruct (disk_holds e p recs T w Hd) as [Hho _].
    destruct (Hall o v) as (en & Hen & Heo & Heh).
    { rewrite Hrec. unfold o. rewrite (p_hdr p). apply placed_mid. }
    destruct Hr as (_ & _ & _ & Hro). rewrite Hro.
    rewrite (run_bind_eq _ _ _ _ _ (vfind_ok e bs (p_cap p Hp) (p_bs p Hp) w d P Wd Hho b es sp ces _ o R O Hch
      (ex_intro _ en (conj Hen (conj Heh Heo))))). cbv beta iota. cbn [run]. f_equal. f_equal. f_equal.
    unfold v1, vi_value. cbn [vi_algorithm vi_key_count vi_value_count vi_value_bytes vi_spill_count vi_spill_count_tot
      vi_spill_bytes vi_spill_bytes_tot vi_hist].
    rewrite kvs_snoc_d, blen_app, vbytes_app, count_app. f_equal.
    + unfold vbytes. cbn [kvs map total snd]. lia.
    + cbn [count is_srec]. lia.
    + cbn [count is_srec]. rewrite !N.add_0_r. reflexivity.
  - replace (o + blen (wr48 (blen v) ++ k ++ v)) with (o + 6 + (ks + blen v)); auto.
    rewrite !blen_app, L6. lia.
Qed.

Lemma cap_fits : bucket_size cap <= bs /\ bucket_size cap < 65536.
Proof using Hp.
  pose proof (p_cap p Hp). pose proof (p_bs p Hp).
  destruct (cap_bound bs) as [X|X]; lia.
Qed.

Lemma spill_at pre es sp rest rd :
  recs = pre ++ SRec es sp :: rest -> at_off d rd (blen (db_hdr p) + blen (enc_recs pre)) ->
  let o := blen (db_hdr p) + blen (enc_recs pre) in
  br_eof rd = false /\ exists r1 r2, run (br_prepare rd 6) w = (w, Ok (wr48 0, r1)) /\
    run (br_prepare r1 2) w = (w, Ok (wr16 (bucket_size cap), r2)) /\ at_off d r2 (o + 8) /\
    o + 8 + bucket_size cap <= blen d /\ bsub (o + 8) (bucket_size cap) d = enc_bucket es sp /\
    blen (enc_rec (SRec es sp)) = 8 + bucket_size cap.
Proof using Hp Hum Hd.
  intros Hrec Hr o. pose proof (dk_dat _ _ _ _ _ Hd) as Wd.
  destruct (recs_rec_ok (SRec es sp)) as (Hes & Hl & Hsp); [rewrite Hrec; apply in_app_iff; simpl; auto|].
  pose proof (mid_d _ _ _ Hrec) as Ed. fold o in Hr.
  assert (Lo : blen (db_hdr p ++ enc_recs pre) = o) by (unfold o; apply blen_app).
  cbn [enc_rec] in *. rewrite Hl in *.
  assert (L6 : blen (wr48 0) = 6) by apply blen_wr48.
  assert (L2 : blen (wr16 (bucket_size cap)) = 2) by apply blen_wr16.
  assert (Lb : blen (enc_bucket es sp) = bucket_size cap) by (rewrite blen_enc_bucket, Hl; reflexivity).
  assert (Ld : blen d = o + 6 + 2 + bucket_size cap + blen (enc_recs rest)).
  { rewrite Ed, blen_app, Lo, !blen_app, L6, L2, Lb. lia. }
  rewrite (at_eof _ w Wd _ _ Hr). replace (blen d <=? o) with false by lia. split; [reflexivity|].
  destruct (at_prepare d w Wd rd o 6 Hr) as (r1 & Hr1 & Ha1); [lia|].
  destruct (at_prepare d w Wd r1 (o + 6) 2 Ha1) as (r2 & Hr2 & Ha2); [lia|].
  exists r1, r2. rewrite Hr1, Hr2.
  assert (E6 : bsub o 6 d = wr48 0).
  { rewrite Ed. rewrite <- (app_assoc (wr48 _)). apply bsub_app_eq; auto. }
  assert (E2 : bsub (o + 6) 2 d = wr16 (bucket_size cap)).
  { assert (Ed2 : d = ((db_hdr p ++ enc_recs pre) ++ wr48 0) ++ wr16 (bucket_size cap) ++ enc_bucket es sp ++ enc_recs rest)
      by (rewrite Ed, <- !app_assoc; reflexivity).
    rewrite Ed2. apply bsub_app_eq; rewrite ?blen_app in *; lia. }
  assert (EB : bsub (o + 8) (bucket_size cap) d = enc_bucket es sp).
  { assert (Ed2 : d = ((db_hdr p ++ enc_recs pre) ++ wr48 0 ++ wr16 (bucket_size cap)) ++ enc_bucket es sp ++ enc_recs rest)
      by (rewrite Ed, <- !app_assoc; reflexivity).
    rewrite Ed2. apply bsub_app_eq; [|auto]. rewrite (blen_app (_ ++ _)), Lo, blen_app. lia. }
  rewrite E6, E2, EB. split; [reflexivity|]. split; [reflexivity|].
  replace (o + 8) with (o + 6 + 2) by lia. split; [exact Ha2|]. split; [lia|]. split; [reflexivity|].
  rewrite !blen_app. lia.
Qed.

Lemma vn_record_spill pre es sp rest rd :
  recs = pre ++ SRec es sp :: rest -> at_off d rd (blen (db_hdr p) + blen (enc_recs pre)) ->
  exists rd', run (vn_record e kh (v1 0 pre, rd)) w = (w, inl (v1 0 (pre ++ [SRec es sp]), rd')) /\
    at_off d rd' (blen (db_hdr p) + blen (enc_recs pre) + blen (enc_rec (SRec es sp))).
Proof using Hp Hum Hd.
  intros Hrec Hr. pose proof (dk_dat _ _ _ _ _ Hd) as Wd.
  destruct (recs_rec_ok (SRec es sp)) as (Hes & Hl & Hsp); [rewrite Hrec; apply in_app_iff; simpl; auto|].
  destruct (spill_at _ _ _ _ _ Hrec Hr) as (Heof & r1 & r2 & Hr1 & Hr2 & Ha2 & Hle & EB & EL).
  rewrite EL. clear EL. set (o := blen (db_hdr p) + blen (enc_recs pre)) in *.
  destruct cap_fits as [F1 F2]. destruct Ha2 as (I2 & F2' & L2' & O2).
  destruct (bk_read_bulk_ok bs (bk_of_blob (fresh e bs)) r2 d w es sp) as (b & r3 & Hr3 & R & I3 & O3 & F3 & L3);
    rewrite ?O2, ?L2', ?F2', ?Hl; auto; try lia.
  { apply blen_fresh. } { apply Hes. }
  { pose proof (p_bs p Hp). lia. }
  exists r3. split.
  - unfold vn_record. rewrite Heof. rewrite run_bind, Hr1. cbv beta iota zeta.
    rewrite rd_size48_wr48 by lia. change (0 <? 0) with false. cbv iota.
    rewrite run_bind, Hr2. cbv beta iota zeta. rewrite rd_wr16 by lia.
    cbn [db_kh kh_capacity kh_block_size]. rewrite N.eqb_refl. cbn [negb].
    rewrite run_bind, Hr3. cbv beta iota. cbn [run]. f_equal. f_equal. f_equal.
    unfold v1, vi_spill_rec, bk_actual. cbn [vi_algorithm vi_key_count vi_value_count vi_value_bytes vi_spill_count vi_spill_count_tot
      vi_spill_bytes vi_spill_bytes_tot vi_hist].
    rewrite kvs_app, vbytes_app, count_app, (rep_size _ _ _ _ R), Hl. cbn [kvs count is_srec].
    rewrite app_nil_r. f_equal; unfold vbytes; cbn [kvs map total]; lia.
  - split; [exact I3|]. split; [congruence|]. split; [congruence|]. rewrite O3, O2, Hl. lia.
Qed.

Lemma start_off n : at_off d (br_make FDat dat_hdr_size (blen d) n) (blen (db_hdr p)).
Proof using Hp.
  rewrite (p_hdr p).
  unfold at_off. split; [|split; [reflexivity|split; [reflexivity|]]].
  - apply br_make_inv; rewrite ?blen_app, ?(p_hdr p); lia.
  - unfold br_offset, br_make. cbn. reflexivity.
Qed.

Lemma vn_scan : run (loop (vn_record e kh) (vinfo0 0, br_make FDat dat_hdr_size (blen d) (1024 * bs))) w
  = (w, Ok (v1 0 recs)).
Proof using Hp Hum Hd Hf.
  pose proof (dk_dat _ _ _ _ _ Hd) as Wd.
  destruct (scan_records w d (db_hdr p) recs Wd eq_refl (vn_record e kh) (fun pre v => v = v1 0 pre) (fun v => v))
    with (s := vinfo0 0) (rd := br_make FDat dat_hdr_size (blen d) (1024 * bs)) as (v & Hl & Hv).
  - intros pre r rest s rd Hrec -> Hr. destruct r as [k v|es sp].
    + destruct (vn_record_data _ _ _ _ _ Hrec Hr) as (rd' & H1 & H2). eauto.
    + destruct (vn_record_spill _ _ _ _ _ Hrec Hr) as (rd' & H1 & H2). eauto.
  - intros s rd _ Hr. unfold vn_record. rewrite (at_eof _ w Wd _ _ Hr), N.leb_refl. reflexivity.
  - reflexivity.
  - apply start_off.
  - subst v. eapply loop_run; [exact Hl|]. pose proof (recs_le recs) as X. pose proof d_len as Y.
    rewrite blen_app, (p_hdr p) in Y. unfold blen in *. unfold dat_hdr_size in Y. lia.
Qed.

(** ** verify_normal: the key file *)
Lemma placed_rec o r : In (o, r) P -> In r recs.
Proof using.
  unfold placed. generalize dat_hdr_size. clear. induction recs as [|x l IH]; intros o1 Hin; cbn [place] in Hin; [destruct Hin|].
  destruct Hin as [X|Hin]; [left; congruence|right; eauto].
Qed.

Lemma vn_entries_ok b es sp fuel : forall i,
  bk_rep bs b es sp -> Forall (linked H (db_salt p) ks P) es -> fuel = N.to_nat (blen es - i) -> i <= blen es ->
  run (vn_entries e kh fuel b i) w = (w, Ok tt).
Proof using Hp Hum Hd.
  induction fuel as [|fuel IH]; intros i R Hl Hfu Hi; [reflexivity|].
  assert (Hlt : i < blen es) by lia. cbn [vn_entries]. cbv zeta.
  rewrite (bk_at_rep _ _ _ _ _ R Hlt).
  rewrite Forall_forall in Hl. destruct (Hl _ (nthN_In es i en0 Hlt)) as (k & v & Hin & Hsz & Hh & Hk).
  destruct (disk_holds e p recs T w Hd) as [Hho _]. pose proof (dk_dat _ _ _ _ _ Hd) as Wd.
  pose proof (Hho _ _ Hin) as [X1 X2]. cbn [enc_rec] in X1, X2. rewrite !blen_app, blen_wr48, Hk in X1, X2.
  pose proof (recs_rec_ok _ (placed_rec _ _ Hin)) as (_ & Hv1 & Hv2).
  set (o := en_off (nthN es i en0)) in *.
  assert (ER : bsub o (6 + ks) d = wr48 (blen v) ++ k).
  { replace (bsub o (6 + ks) d) with (bsub 0 (6 + ks) (bsub o (6 + (ks + blen v)) d))
      by (rewrite bsub_bsub by lia; f_equal; lia).
    rewrite X2, app_assoc. apply (bsub_app_eq 0 _ []); [reflexivity|]. rewrite blen_app, blen_wr48. lia. }
  cbn [db_kh kh_key_size kh_salt].
  rewrite (run_bind_eq _ _ _ _ _ (run_read _ _ _ _ _ Wd (ltac:(lia) : o + (6 + ks) <= blen d))). cbv beta iota.
  rewrite ER. rewrite btake_app_eq, bdrop_app_eq by (rewrite blen_wr48; reflexivity).
  rewrite rd_wr48 by lia. rewrite Hsz, N.eqb_refl. cbn [negb]. rewrite Hh, N.eqb_refl. cbn [negb].
  apply IH; auto; try lia. rewrite Forall_forall. exact Hl.
Qed.

Definition vadd (k c : N) (v : vinfo) : vinfo :=
  VInfo (vi_algorithm v) (vi_key_count v + k) (vi_value_count v) (vi_value_bytes v)
    (vi_spill_count v + c) (vi_spill_count_tot v) (vi_spill_bytes v + c * (8 + bucket_size cap))
    (vi_spill_bytes_tot v) (vi_hist v).

Lemma vn_chain_ok sp ces : chain bs P sp ces -> forall b es ns v,
  bk_rep bs b es sp -> Forall (linked H (db_salt p) ks P) (es ++ ces) ->
  exists n c, loops (vn_chain_step e kh) n (b, ns, v) w w (Ok (ns + c, vadd (blen es + blen ces) c v)) /\
    N.of_nat n <= sp + 1 /\ blen ces = c * cap.
Proof using Hp Hum Hd.
  induction 1 as [|sp es2 sp' ces H8 Hsp Hin Hlen Hok Hlt Hch IH]; intros b es ns v R Hl.
  - exists 1%nat, 0. rewrite app_nil_r in Hl. split; [|split; [lia|reflexivity]].
    constructor. unfold vn_chain_step.
    rewrite (run_bind_eq _ _ _ _ _ (vn_entries_ok b es 0 (N.to_nat (bk_size b)) 0 R Hl
      ltac:(rewrite (rep_size _ _ _ _ R); lia) ltac:(lia))). cbv beta iota.
    rewrite (rep_spill _ _ _ _ R), N.eqb_refl. cbn [run]. rewrite N.add_0_r.
    f_equal. f_equal. f_equal. f_equal. unfold vadd, vi_keys. rewrite (rep_size _ _ _ _ R), (blen_nil (A:=entry)). f_equal; lia.
  - apply Forall_app in Hl as [Hl1 Hl2].
    destruct (disk_holds e p recs T w Hd) as [Hho _]. pose proof (dk_dat _ _ _ _ _ Hd) as Wd.
    destruct (read_spill bs e d P w sp es2 sp') as (b2 & Hb2 & R2); auto; [lia|apply (p_cap p Hp)|apply (p_bs p Hp)|].
    destruct (IH b2 es2 (ns + 1) (vi_spill (bk_actual b2) (vi_keys (bk_size b) v)) R2 Hl2) as (n & c & Hlo & Hn & Hc).
    exists (Datatypes.S n), (c + 1). split; [|split; [lia|]].
    + eapply loops_more.
      * unfold vn_chain_step.
        rewrite (run_bind_eq _ _ _ _ _ (vn_entries_ok b es sp (N.to_nat (bk_size b)) 0 R Hl1
          ltac:(rewrite (rep_size _ _ _ _ R); lia) ltac:(lia))). cbv beta iota.
        rewrite (rep_spill _ _ _ _ R). replace (sp =? 0) with false by lia.
        cbn [db_kh kh_block_size]. rewrite (run_bind_eq _ _ _ _ _ Hb2). reflexivity.
      * replace (ns + (c + 1)) with (ns + 1 + c) by lia.
        replace (vadd (blen es + blen (es2 ++ ces)) (c + 1) v)
          with (vadd (blen es2 + blen ces) c (vi_spill (bk_actual b2) (vi_keys (bk_size b) v))); [exact Hlo|].
        unfold vadd, vi_spill, vi_keys, bk_actual. cbn [vi_algorithm vi_key_count vi_value_count vi_value_bytes vi_spill_count vi_spill_count_tot
          vi_spill_bytes vi_spill_bytes_tot vi_hist].
        rewrite blen_app, (rep_size _ _ _ _ R), (rep_size _ _ _ _ R2), Hlen. f_equal; lia.
    + rewrite blen_app, Hlen, Hc. lia.
Qed.

Lemma mine_linked n : Forall (linked H (db_salt p) ks P) (filter (mine B M n) E).
Proof using Hp Hum Hd.
  rewrite Forall_forall. intros en Hin. apply filter_In in Hin as [Hin _].
  eapply dents_linked; eauto. apply Hd.
Qed.

(** Numbers 0 to n-1. *)
Definition upto (n : nat) : list N := map N.of_nat (seq 0 n).
Lemma upto_S n : upto (Datatypes.S n) = upto n ++ [N.of_nat n].
Proof using. unfold upto. rewrite seq_S, map_app. reflexivity. Qed.

Definition nmine (n : N) : N := blen (filter (mine B M n) E).
Definition lens (n : nat) : list N := map clen (upto n).

(** Statistics after the buckets 0 to n-1. *)
Definition v2 (n : nat) (v : vinfo) : vinfo :=
  VInfo (vi_algorithm v) (vi_key_count v + total (map nmine (upto n))) (vi_value_count v) (vi_value_bytes v)
    (vi_spill_count v + total (lens n)) (vi_spill_count_tot v)
    (vi_spill_bytes v + total (lens n) * (8 + bucket_size cap))
    (vi_spill_bytes_tot v) (bumps (lens n) (vi_hist v)).

Lemma lens_S n : lens (Datatypes.S n) = lens n ++ [clen (N.of_nat n)].
Proof using. unfold lens. rewrite upto_S, map_app. reflexivity. Qed.

Lemma v2_S n v : vi_bucket (clen (N.of_nat n)) (vadd (nmine (N.of_nat n)) (clen (N.of_nat n)) (v2 n v))
  = v2 (Datatypes.S n) v.
Proof using.
  unfold v2, vi_bucket, vadd. cbn [vi_algorithm vi_key_count vi_value_count vi_value_bytes vi_spill_count vi_spill_count_tot
          vi_spill_bytes vi_spill_bytes_tot vi_hist].
  rewrite lens_S, upto_S, map_app, !total_app, bumps_app. cbn [map total]. f_equal; try lia. 
Qed.

Lemma v2_0 v : v2 0 v = v.
Proof using. destruct v. unfold v2. cbn. f_equal; lia. Qed.

Lemma vn_bucket n v : N.of_nat n < B ->
  run (vn_bucket_step e kh (N.of_nat n, v2 n v)) w = (w, inl (N.of_nat (Datatypes.S n), v2 (Datatypes.S n) v)).
Proof using Hp Hum Hd.
  intros Hn. unfold vn_bucket_step. cbn [db_kh kh_buckets kh_block_size].
  replace (N.of_nat n <? B) with true by lia.
  destruct (bucket_at (N.of_nat n) Hn) as (b & es & sp & ces & Hr & Hnth & R & O & Hch & Hperm).
  rewrite (run_bind_eq _ _ _ _ _ Hr). cbv beta iota.
  destruct (vn_chain_ok sp ces Hch b es 0 (v2 n v) R) as (m & c & Hlo & Hm & Hc).
  { eapply Permutation_Forall; [symmetry; exact Hperm|]. apply mine_linked. }
  apply loop_run in Hlo; [|apply chain_lt in Hch; lia].
  rewrite (run_bind_eq _ _ _ _ _ Hlo). cbv beta iota. cbn [run].
  rewrite <- (clen_chain _ _ _ _ _ Hn Hnth Hperm Hc).
  replace (blen es + blen ces) with (nmine (N.of_nat n)).
  - rewrite N.add_0_l, v2_S. f_equal. f_equal. f_equal. lia.
  - unfold nmine. rewrite <- (perm_blen _ _ Hperm), blen_app. reflexivity.
Qed.

Lemma vn_buckets v : run (loop (vn_bucket_step e kh) (0, v)) w = (w, Ok (v2 (N.to_nat B) v)).
Proof using Hp Hum Hd.
  assert (G : forall k n, (n + k = N.to_nat B)%nat ->
    loops (vn_bucket_step e kh) (k + 1) (N.of_nat n, v2 n v) w w (Ok (v2 (N.to_nat B) v))).
  { induction k as [|k IH]; intros n Hnk.
    - constructor. unfold vn_bucket_step. cbn [db_kh kh_buckets].
      replace (N.of_nat n <? B) with false by lia. cbn [run].
      replace n with (N.to_nat B) by lia. reflexivity.
    - cbn [Nat.add]. eapply loops_more; [apply vn_bucket; lia|]. apply IH. lia. }
  specialize (G (N.to_nat B) 0%nat eq_refl). rewrite v2_0 in G. change (N.of_nat 0) with 0 in G.
  eapply loop_run; [exact G|]. destruct (disk_pow e p Hp recs T w Hd) as (_ & X & _). lia.
Qed.

(** Every entry is in one bucket. *)
Lemma total_mine : total (map nmine (upto (N.to_nat B))) = blen E.
Proof using Hp Hum Hd.
  destruct (disk_pow e p Hp recs T w Hd) as (H1 & _ & Hpo & _).
  unfold nmine. generalize E. intros l. induction l as [|en l IH].
  - generalize (upto (N.to_nat B)). intros u. induction u as [|n u IHu]; [reflexivity|]. cbn [map total].
    change (blen (filter (mine B M n) [])) with 0. rewrite IHu. reflexivity.
  - rewrite blen_cons, <- IH. clear IH.
    assert (Hi : bucket_index (en_hash en) B M < B) by (apply bucket_index_lt; auto).
    set (i := bucket_index (en_hash en) B M) in *.
    assert (G : forall k, total (map (fun n => blen (filter (mine B M n) (en :: l))) (upto k)) =
      total (map (fun n => blen (filter (mine B M n) l)) (upto k)) + (if i <? N.of_nat k then 1 else 0)).
    { induction k as [|k IHk].
      - cbn. replace (i <? 0) with false by lia. reflexivity.
      - rewrite upto_S, !map_app, !total_app, IHk. cbn [map total filter].
        unfold mine at 2. fold i.
        destruct (N.eqb_spec i (N.of_nat k)).
        + rewrite blen_cons. destruct (N.ltb_spec i (N.of_nat k)); destruct (N.ltb_spec i (N.of_nat (Datatypes.S k))); lia.
        + destruct (N.ltb_spec i (N.of_nat k)); destruct (N.ltb_spec i (N.of_nat (Datatypes.S k))); lia. }
    rewrite G. replace (i <? N.of_nat (N.to_nat B)) with true by lia. reflexivity.
Qed.

(** The result of verify_normal. *)
Definition vtrue (alg tot : N) : vinfo :=
  VInfo alg (blen (kvs recs)) (blen (kvs recs)) (vbytes recs) (total (lens (N.to_nat B)))
    (count is_srec recs) (total (lens (N.to_nat B)) * (8 + bucket_size cap)) tot
    (bumps (lens (N.to_nat B)) (repeat 0 10)).

Lemma verify_normal_ok : run (verify_normal e kh (blen d)) w =
  (w, Ok (vtrue 0 (count is_srec recs * (8 + bucket_size cap)))).
Proof using Hp Hum Hd Hf.
  unfold verify_normal. cbn [db_kh kh_block_size]. cbv zeta.
  rewrite (run_ebind_ok _ _ _ _ _ vn_scan). cbv beta. rewrite vn_buckets. f_equal. f_equal.
  unfold v2, v1, vtrue. cbn [vi_algorithm vi_key_count vi_value_count vi_value_bytes vi_spill_count vi_spill_count_tot
          vi_spill_bytes vi_spill_bytes_tot vi_hist]. rewrite total_mine, blen_dents. f_equal; lia.
Qed.
End Db.
