(** Recovery from a stopped commit. *)
From Verif Require Import Model.Bytes Model.Err Model.Field Model.Format Model.IO
  Model.BulkIO Model.Bucket Model.Pool Model.Recover Model.Store Model.Crash
  Proofs.BytesFacts Proofs.FieldFacts Proofs.IOFacts Proofs.PoolFacts Proofs.BucketFacts
  Proofs.BulkFacts Proofs.HashFacts Proofs.Table Proofs.Lookup Proofs.SplitFacts
  Proofs.CommitFacts Proofs.CommitInv Proofs.CommitRun Proofs.HeaderFacts Proofs.StoreInv
  Proofs.OpenFacts Proofs.SafeFacts Proofs.CommitOps Proofs.CrashFacts.

Local Opaque lhead dat0 key0.

(** Reading changes nothing. *)
Notation reads := (allops io_pure anyres).

Lemma reads_br_prepare r n : reads (br_prepare r n).
Proof.
  apply (ao_weaken io_pure io_pure (okres anyres)); [|auto|intros; exact I].
  unfold br_prepare. apply (ao_ebind _ anyres).
  - destruct (blen (br_avail r) <? n); [|apply ao_pret; exact I].
    destruct (br_last r <? br_off r + n - blen (br_avail r)); [apply ao_pfail|].
    apply (ao_ebind _ anyres); [apply ao_data; exact I|]. intros; apply ao_pret; exact I.
  - intros; apply ao_pret; exact I.
Qed.
Lemma reads_ret {A} (a : A) : reads (Ret a).
Proof. constructor. exact I. Qed.
Lemma reads_bind {A B} (p : prog A) (f : A -> prog B) : reads p -> (forall a, reads (f a)) -> reads (bind p f).
Proof. intros. eapply ao_bind; eauto. Qed.
Lemma reads_ebind {A B} (p : prog (res A)) (f : A -> prog (res B)) : reads p -> (forall a, reads (f a)) -> reads (ebind p f).
Proof. intros. unfold ebind. apply reads_bind; auto. intros [a|er]; auto. apply reads_ret. Qed.
Lemma reads_bk_read_bulk b r : reads (bk_read_bulk b r).
Proof.
  unfold bk_read_bulk. apply reads_bind; [apply reads_br_prepare|]. intros [[is r']|er]; [|apply reads_ret].
  apply reads_bind; [apply reads_br_prepare|]. intros [[is' r2]|er]; [|apply reads_ret].
  destruct (bk_bs _ <? _); apply reads_ret.
Qed.
Lemma reads_open f : reads (p_open f).
Proof. constructor; [exact I|]. intros []; apply reads_ret. Qed.
Lemma reads_size f : reads (p_size f).
Proof. constructor; [exact I|]. intros []; apply reads_ret. Qed.
Lemma reads_read f o n : reads (p_read f o n).
Proof. constructor; [exact I|]. intros []; apply reads_ret. Qed.
Lemma reads_dh : reads read_dat_header.
Proof. unfold read_dat_header. apply reads_ebind; [apply reads_read|intros; apply reads_ret]. Qed.
Lemma reads_kh : reads read_key_header.
Proof.
  unfold read_key_header. apply reads_ebind; [apply reads_read|]. intros.
  apply reads_ebind; [apply reads_size|intros; apply reads_ret].
Qed.
Lemma reads_lh : reads read_log_header.
Proof. unfold read_log_header. apply reads_ebind; [apply reads_read|intros; apply reads_ret]. Qed.
Lemma reads_lift {A} (r : res A) : reads (plift r).
Proof. apply reads_ret. Qed.

(** Loops keep an invariant of the state, the files and the disk. *)
Lemma safe_iterp ordf (G : world -> Prop) {St R} (J : St -> world -> surv -> Prop) (Q : R -> world -> surv -> Prop)
  (step : St -> prog (St + R)) :
  (forall s w S, J s w S -> safe ordf G (step s) w S (fun r w' S' =>
     match r with inl s' => J s' w' S' | inr x => Q x w' S' /\ forall v, on_disk S' v -> G v end)) ->
  (forall s w S, J s w S -> forall v, on_disk S v -> G v) ->
  forall n s w S, J s w S -> safe ordf G (iterp n step s) w S (fun r w' S' =>
     match r with inl s' => J s' w' S' | inr x => Q x w' S' /\ forall v, on_disk S' v -> G v end).
Proof.
  intros Hs HG. induction n as [q IH|q IH|]; intros s w S Hj; cbn [iterp].
  - apply safe_bind. eapply safe_weaken; [apply Hs; exact Hj|auto|]. cbv beta.
    intros [s'|x] w' S' H; [|simpl; split; [apply H|exact H]].
    apply safe_bind. eapply safe_weaken; [apply IH; exact H|auto|]. cbv beta.
    intros [s2|x] w2 S2' H2; [apply IH; auto|simpl; split; [apply H2|exact H2]].
  - apply safe_bind. eapply safe_weaken; [apply IH; exact Hj|auto|]. cbv beta.
    intros [s2|x] w2 S2' H2; [apply IH; auto|simpl; split; [apply H2|exact H2]].
  - apply Hs; auto.
Qed.

Lemma safe_loop ordf (G : world -> Prop) {St R} (J : St -> world -> surv -> Prop) (Q : res R -> world -> surv -> Prop)
  (step : St -> prog (St + res R)) s w S :
  (forall s w S, J s w S -> safe ordf G (step s) w S (fun r w' S' =>
     match r with inl s' => J s' w' S' | inr x => Q x w' S' /\ forall v, on_disk S' v -> G v end)) ->
  (forall s w S, J s w S -> forall v, on_disk S v -> G v) ->
  J s w S -> safe ordf G (loop step s) w S (fun r w' S' => r = Er EDiverge \/ Q r w' S').
Proof.
  intros Hs HG Hj. unfold loop. apply safe_bind. eapply safe_weaken; [apply (safe_iterp _ _ J Q); auto|auto|].
  cbv beta. intros [s'|x] w' S' H; simpl.
  - split; [eapply HG; eauto|auto].
  - split; [apply H|right; apply H].
Qed.

(** Reading a compact bucket. *)
Lemma bk_read_bulk_ok bs b r c w es sp :
  br_inv c r -> wget w (br_file r) = Some c ->
  br_offset r + bucket_size (blen es) <= br_last r ->
  bsub (br_offset r) (bucket_size (blen es)) c = enc_bucket es sp ->
  blen (bk_blob b) = bs -> Forall entry_ok es -> sp < 281474976710656 ->
  blen es <= bucket_capacity bs -> bucket_size (blen es) <= bs -> bs < 65536 ->
  exists b' r', run (bk_read_bulk b r) w = (w, (b', Ok r')) /\ bk_rep bs b' es sp /\
    br_inv c r' /\ br_offset r' = br_offset r + bucket_size (blen es) /\
    br_file r' = br_file r /\ br_last r' = br_last r.
Proof.
  intros Hi Hw Ho Hc Hb He Hs Hcap Hfit Hbs. unfold bk_read_bulk.
  pose proof (cap_le bs) as Hcl.
  assert (E : bucket_size (blen es) = 8 + blen es * 18) by (unfold bucket_size; lia).
  rewrite E in *.
  assert (Hl : br_offset r + 8 + blen es * 18 <= blen c) by (destruct Hi; lia).
  assert (H8 : bsub (br_offset r) 8 c = wr16 (blen es) ++ wr48 sp /\
    bsub (br_offset r + 8) (blen es * 18) c = enc_entries es).
  { split.
    - replace (bsub (br_offset r) 8 c) with (bsub 0 8 (bsub (br_offset r) (8 + blen es * 18) c))
        by (rewrite bsub_bsub by lia; f_equal; lia).
      rewrite Hc. unfold enc_bucket. rewrite app_assoc. apply (bsub_app_eq 0 8 []); reflexivity.
    - replace (bsub (br_offset r + 8) (blen es * 18) c)
        with (bsub 8 (blen es * 18) (bsub (br_offset r) (8 + blen es * 18) c)) by (rewrite bsub_bsub by lia; auto).
      rewrite Hc. unfold enc_bucket. rewrite app_assoc. apply bsub_app_eq'; [reflexivity|].
      rewrite blen_enc_entries; auto. }
  destruct H8 as [H8 H18].
  destruct (run_br_prepare c r w 8 Hi Hw) as (r1 & R1 & I1 & O1 & F1 & L1); [lia|].
  rewrite (run_bind_eq _ _ _ _ _ R1). cbv beta iota zeta. rewrite H8.
  assert (S1 : rd16 (bsub 0 2 (wr16 (blen es) ++ wr48 sp)) = blen es).
  { replace (bsub 0 2 _) with (wr16 (blen es)) by (symmetry; apply (bsub_app_eq 0 2 []); reflexivity).
    apply rd_wr16. lia. }
  assert (S2 : rd48 (bsub 2 6 (wr16 (blen es) ++ wr48 sp)) = sp).
  { rewrite bsub_app_eq' by reflexivity. apply rd_wr48; auto. }
  rewrite S1, S2.
  destruct (run_br_prepare c r1 w (blen es * 18) I1) as (r2 & R2 & I2 & O2 & F2 & L2).
  { rewrite F1. auto. } { lia. }
  rewrite (run_bind_eq _ _ _ _ _ R2). cbv beta iota zeta. rewrite O1, H18.
  unfold bk_bs, bk_update. cbn [bk_blob bk_size bk_spill].
  assert (H8l : blen (wr16 (blen es) ++ wr48 sp) = 8) by reflexivity.
  rewrite blen_bwrite_gen, H8l, Hb. replace (N.max bs (0 + 8) <? 8 + blen es * 18) with false by lia.
  eexists _, r2. split; [reflexivity|]. splits; auto; try lia; try congruence.
  set (d := bk_blob b) in *. remember (wr16 (blen es) ++ wr48 sp) as h eqn:Eh.
  rewrite (bwrite_in 0 h d) by (rewrite H8l; lia). rewrite H8l, btake_0, app_nil_l. change (0 + 8) with 8.
  constructor; cbn [bk_blob bk_size bk_spill]; auto.
  - exists (bdrop (8 + blen es * 18) d).
    rewrite bwrite_in by (rewrite blen_app, H8l, blen_enc_entries, blen_bdrop; lia).
    rewrite btake_app_eq by (rewrite H8l; auto).
    rewrite bdrop_app_r by (rewrite H8l; lia). rewrite H8l, blen_enc_entries, bdrop_bdrop.
    unfold enc_bucket. rewrite <- !app_assoc. rewrite Eh, <- app_assoc. do 4 f_equal. lia.
  - rewrite blen_bwrite_gen. rewrite blen_app, H8l, blen_enc_entries, blen_bdrop. lia.
Qed.

Section Rec.
Variables (e : env) (p : dbp).
Hypothesis Hp : dbp_ok p.
Notation bs := (db_block_size p).
Variables (recs : list drec) (T : list bent) (w0 : world).
Hypothesis Hd : disk e p recs T w0.
Notation d0 := (dat0 p recs).
Notation K0 := (key0 e p T).
Notation kmid := (key_mid e p T).
Notation valid := (valid_lrec T).

Lemma K0_len : blen K0 = (blen T + 1) * bs.
Proof. Local Transparent key0. apply (kfile_len e p Hp _ _ _ Hd). Qed.
Local Opaque key0.
Lemma T_pos : 1 <= blen T.
Proof. destruct (disk_pow e p Hp _ _ _ Hd); auto. Qed.
Lemma bs_pos : 104 <= bs /\ bs < 65536.
Proof. split; [apply block_size_min, p_cap; auto|]. destruct Hp as (_ & _ & _ & _ & _ & X & _). exact X. Qed.

Lemma valid_ok r : valid r ->
  Forall entry_ok (fst (snd r)) /\ snd (snd r) < 281474976710656 /\
  blen (fst (snd r)) <= bucket_capacity bs /\ bucket_size (blen (fst (snd r))) <= bs /\
  (snd (snd r) <> 0 -> snd (snd r) + bucket_size (bucket_capacity bs) <= blen d0).
Proof.
  intros [Hn ->]. destruct (disk_pow e p Hp _ _ _ Hd) as (_ & _ & _ & Ht).
  destruct (ti_b _ _ _ _ _ Ht (fst r) Hn) as [(O1 & O2) C _ (ces & Hch & _)]. fold b0 in *.
  splits; auto.
  - eapply chain_lt; eauto.
  - destruct (cap_bound bs) as [X|X]; [unfold bucket_size in *; clear - X C; lia|].
    pose proof (p_cap p Hp). lia.
  - intros Hne. inversion Hch; subst; [congruence|].
    destruct (disk_holds e p _ _ _ Hd) as [Hh _].
    destruct (Hh _ _ H1) as [X _]. cbn [enc_rec] in X.
    rewrite !blen_app, blen_wr48, blen_wr16, blen_enc_bucket in X.
    Local Transparent dat0. unfold dat0. rewrite blen_app. rewrite H2 in X. clear - X H. lia.
Qed.
Local Opaque dat0.

Lemma kmid_fix r l k : valid r -> kmid (r :: l) k ->
  kmid l (bwrite ((fst r + 1) * bs) (enc_block bs (fst (snd r)) (snd (snd r))) k).
Proof.
  intros Hv [Hk1 Hk2]. destruct (valid_ok r Hv) as (_ & _ & _ & Hbl & _). destruct Hv as [Hn Es].
  assert (Hbl' : blen (enc_block bs (fst (snd r)) (snd (snd r))) = bs) by (apply blen_enc_block; auto).
  split.
  - rewrite blen_bwrite_max. lia.
  - intros i Hi Ho. rewrite nthN_bwrite. rewrite Hbl'.
    destruct ((_ <=? i) && (i <? _)) eqn:E.
    + apply andb_true_iff in E as [E1 E2].
      destruct (kfile_block bs (db_kb e p) T (fst r)) as [B1 B2].
      { apply p_kb; auto. }
      { apply (T_fits (db_kh e p 0) (p_cap p Hp)). apply (disk_bent e p _ _ _ Hd). }
      { auto. }
      Local Transparent key0. fold (key0 e p T) in B1, B2. Local Opaque key0.
      fold b0 in B2. rewrite <- Es in B2. unfold kblock in B2. rewrite <- B2.
      unfold bsub. rewrite nthN_btake by lia. rewrite nthN_bdrop. f_equal. lia.
    + apply Hk2; auto. intros r' [<-|Hr']; [|apply Ho; auto].
      apply andb_false_iff in E as [E|E]; [left|right]; lia.
Qed.

(** The state of the replay loop: the records [l] and a cut record [q] are left. *)
Record live (x c : bytes) (l : list lrec) (q : bytes) (st : bucket * breader) (w : world) : Prop := Live {
  lv_r : br_inv c (snd st);
  lv_f : br_file (snd st) = FLog;
  lv_last : br_last (snd st) = blen c;
  lv_off : br_offset (snd st) <= blen c;
  lv_rest : bdrop (br_offset (snd st)) c = enc_lrecs l ++ q;
  lv_b : blen (bk_blob (fst st)) = bs;
  lv_dat : wget w FDat = Some (d0 ++ x);
  lv_log : wget w FLog = Some c;
  lv_key : exists k, wget w FKey = Some k /\ kmid l k;
  lv_l : Forall valid l;
  lv_q : cut T q }.

Definition ISv (x c : bytes) (L : list lrec) (S : surv) : Prop :=
  (forall y, S FDat y -> y = Some (d0 ++ x)) /\
  (forall y, S FKey y -> exists k, y = Some k /\ kmid L k) /\
  (forall y, S FLog y -> y = Some c).

Notation G := (before e p recs T).

Lemma ISv_before x L q S : Forall valid L -> blen L <= blen T -> cut T q ->
  ISv x (lhead e p recs T ++ enc_lrecs L ++ q) L S -> forall v, on_disk S v -> G v.
Proof.
  intros HL Hn Hq (A & B & C) v Hv. right.
  destruct (B _ (Hv FKey)) as (k & Hk & Hm). exists x, k, L, q. splits; auto.
Qed.

Variable B : N.
Hypothesis HB : blen T <= B.
Notation kh := (db_kh e p B).

Lemma bdrop_bsub (c a b : bytes) o n : bdrop o c = a ++ b -> n = blen a -> bsub o n c = a.
Proof. intros H ->. unfold bsub. rewrite H. apply btake_app_eq. auto. Qed.
Lemma bdrop_next (c a b : bytes) o n : bdrop o c = a ++ b -> n = blen a -> bdrop (o + n) c = b.
Proof. intros H ->. rewrite <- bdrop_bdrop, H. apply bdrop_app_eq. auto. Qed.

(** Reading the number and the bucket of one record. *)
Lemma step_one x c r l q st w :
  live x c (r :: l) q st w ->
  exists st' w', run (recover_step kh (blen (d0 ++ x)) st) w = (w', inl st') /\ live x c l q st' w' /\
  forall L S, In r L -> (forall S', ISv x c L S' -> forall v, on_disk S' v -> G v) -> ISv x c L S ->
    safe ord G (recover_step kh (blen (d0 ++ x)) st) w S (fun _ _ S' => ISv x c L S').
Proof.
  intros [H1 H2 H3 H4 H5 H6 H7 H8 (k & H9 & H10) H11 H12]. destruct st as [b rd]. cbn [fst snd] in *.
  assert (Hv : valid r) by (inversion H11; auto). assert (Hl : Forall valid l) by (inversion H11; auto).
  destruct (valid_ok r Hv) as (V1 & V2 & V3 & V4 & V5). destruct bs_pos as [Hbs1 Hbs2].
  cbn [enc_lrecs flat_map] in H5. fold (enc_lrecs l) in H5.
  unfold enc_lrec in H5. rewrite <- !app_assoc in H5.
  pose proof (f_equal blen H5) as Hlen. rewrite blen_bdrop, !blen_app, blen_wr64, blen_enc_bucket in Hlen.
  set (es := fst (snd r)) in *. set (sp := snd (snd r)) in *.
  assert (Heof : br_eof rd = false) by (unfold br_eof; rewrite H3; clear - Hlen; lia).
  destruct (run_br_prepare c rd w 8 H1) as (r1 & R1 & I1 & O1 & F1 & L1);
    [rewrite H2; auto|rewrite H3; clear - Hlen; lia|].
  rewrite (bdrop_bsub _ _ _ _ _ H5) in R1 by reflexivity.
  pose proof (bdrop_next _ _ _ _ 8 H5 eq_refl) as H5'. rewrite <- O1 in H5'.
  destruct (bk_read_bulk_ok bs b r1 c w es sp I1) as (b' & r2 & R2 & Rep & I2 & O2 & F2 & L2); auto.
  { rewrite F1, H2. auto. }
  { rewrite L1, H3, O1. clear - Hlen. lia. }
  { eapply bdrop_bsub; [exact H5'|]. rewrite blen_enc_bucket; auto. }
  pose proof (bdrop_next _ _ _ _ _ H5' (eq_sym (blen_enc_bucket es sp))) as H5''. rewrite <- O2 in H5''.
  assert (Hn : fst r < blen T) by apply Hv.
  assert (Erd : rd64 (wr64 (fst r)) = fst r).
  { apply rd_wr64. destruct (disk_pow e p Hp _ _ _ Hd) as (_ & X & _). clear - X Hn. lia. }
  assert (Esp : bk_spill b' = sp) by apply Rep.
  assert (C1 : negb (sp =? 0) && (blen (d0 ++ x) <? sp + bucket_size (kh_capacity kh)) = false).
  { destruct (N.eqb_spec sp 0) as [E|E]; [reflexivity|]. specialize (V5 E). rewrite blen_app.
    cbn [negb andb db_kh kh_capacity]. clear - V5. lia. }
  assert (C2 : (kh_buckets kh <? fst r) = false) by (cbn [db_kh kh_buckets]; clear - HB Hn; lia).
  set (blk := enc_block bs es sp).
  assert (Epad : bk_padded b' = blk) by (apply padded_rep with (bs := bs); auto).
  assert (Hblk : blen blk = bs) by (apply blen_enc_block; auto).
  exists (b', r2), (wset w FKey (Some (bwrite ((fst r + 1) * bs) blk k))). splits.
  - unfold recover_step. rewrite Heof. rewrite (run_bind_eq _ _ _ _ _ R1). cbv beta iota zeta.
    rewrite (run_bind_eq _ _ _ _ _ R2). cbv beta iota zeta. rewrite Esp, C1, Erd, C2.
    unfold bk_write. rewrite Epad. cbn [db_kh kh_block_size].
    erewrite run_bind_eq by (apply run_write; eauto). reflexivity.
  - constructor; cbn [fst snd]; auto.
    + rewrite F2, F1. auto.
    + rewrite L2, L1. auto.
    + rewrite O2, O1. clear - Hlen. lia.
    + apply Rep.
    + eexists. split; [apply wget_wset_same|]. apply kmid_fix; auto.
  - intros L S HrL HG HS. unfold recover_step. rewrite Heof.
    eapply safe_skip; [exact R1|apply reads_br_prepare|apply (HG _ HS)|]. cbv beta iota zeta.
    eapply safe_skip; [exact R2|apply reads_bk_read_bulk|apply (HG _ HS)|]. cbv beta iota zeta.
    rewrite Esp, C1, Erd, C2. unfold bk_write. rewrite Epad. cbn [db_kh kh_block_size].
    unfold p_write, do_unit. cbn [bind safe exec sexec fst snd]. rewrite H9. cbn [andb fst snd bind safe].
    assert (HS' : ISv x c L (sset S FKey (fun y => S FKey y \/
       (if ord FKey then exists n, y = Some (bwrite ((fst r + 1) * bs) (btake n blk) k)
        else exists y0 y', S FKey (Some y0) /\ y = Some y' /\ torn_write ((fst r + 1) * bs) (blen blk) y0 y')))).
    { destruct HS as (A & C & D). unfold ISv. cbn [sset fname_eqb log_in_order]. splits; auto.
      intros y [Hy|(y0 & y' & Hy & -> & Ht)]; auto. destruct (C _ Hy) as (k' & Ek & Hk'). injection Ek as <-.
      exists y'. split; auto. eapply key_mid_write; [exact Hk'|exact Ht|].
      intros i _ Hi. exists r. split; auto. rewrite Hblk in Hi. exact Hi. }
    splits; [apply (HG _ HS)|apply (HG _ HS')|exact HS'].
Qed.

Lemma step_last x c q st w :
  live x c [] q st w ->
  run (recover_step kh (blen (d0 ++ x)) st) w = (w, inr (Ok tt)) /\
  forall S, (forall v, on_disk S v -> G v) ->
    safe ord G (recover_step kh (blen (d0 ++ x)) st) w S (fun r _ S' => r = inr (Ok tt) /\ S' = S).
Proof.
  intros [H1 H2 H3 H4 H5 H6 H7 H8 _ H11 (r & q2 & Hv & Eq & Hq2)]. destruct st as [b rd]. cbn [fst snd] in *.
  cbn [enc_lrecs flat_map app] in H5.
  destruct (valid_ok r Hv) as (V1 & V2 & V3 & V4 & V5). destruct bs_pos as [Hbs1 Hbs2].
  pose proof (f_equal blen H5) as Hlen. rewrite blen_bdrop in Hlen.
  pose proof (f_equal blen Eq) as Hl2. rewrite blen_enc_lrec, blen_app in Hl2.
  assert (Hq2' : 1 <= blen q2).
  { destruct q2; [congruence|]. rewrite blen_cons. clear; lia. }
  set (es := fst (snd r)) in *. set (sp := snd (snd r)) in *.
  unfold recover_step. unfold br_eof. rewrite H3.
  destruct (N.leb_spec (blen c) (br_offset rd)) as [L0|L0].
  { split; [reflexivity|]. intros S HG. simpl. auto. }
  destruct (N.lt_ge_cases (blen q) 8) as [L8|L8].
  { pose proof (run_br_prepare_short c rd w 8 H1) as R1. rewrite H3 in R1. rewrite <- Hlen in L8.
    specialize (R1 ltac:(clear - L8; lia)). split.
    - rewrite (run_bind_eq _ _ _ _ _ R1). reflexivity.
    - intros S HG. eapply safe_skip; [exact R1|apply reads_br_prepare|exact HG|]. simpl. auto. }
  destruct (run_br_prepare c rd w 8 H1) as (r1 & R1 & I1 & O1 & F1 & L1);
    [rewrite H2; auto|rewrite H3; clear - Hlen L8; lia|].
  assert (exists t, q = wr64 (fst r) ++ t) as (t & ->).
  { assert (X : pref (wr64 (fst r)) q).
    { destruct (pref_comp (wr64 (fst r)) q (enc_lrec r)) as [Y|Y]; [apply pref_app|exists q2; auto|auto|].
      destruct Y as [u Hu]. destruct u; [rewrite app_nil_r in Hu; exists []; rewrite app_nil_r; auto|].
      apply (f_equal blen) in Hu. rewrite blen_wr64, blen_app, blen_cons in Hu. clear - Hu L8; lia. }
    destruct X as [t ->]. eauto. }
  rewrite (bdrop_bsub _ _ _ _ _ H5) in R1 by reflexivity.
  pose proof (bdrop_next _ _ _ _ 8 H5 eq_refl) as H5'. rewrite <- O1 in H5'.
  unfold enc_lrec in Eq. rewrite <- app_assoc in Eq. apply app_inv_head in Eq.
  rewrite blen_app, blen_wr64 in Hlen, Hl2. fold es sp in Eq.
  assert (R2 : exists b', run (bk_read_bulk b r1) w = (w, (b', Er short_read))).
  { unfold bk_read_bulk. destruct (N.lt_ge_cases (blen t) 8) as [L16|L16].
    - pose proof (run_br_prepare_short c r1 w 8 I1) as R2. rewrite L1, H3, O1 in R2.
      specialize (R2 ltac:(clear - L16 Hlen; lia)). eexists.
      rewrite (run_bind_eq _ _ _ _ _ R2). reflexivity.
    - destruct (run_br_prepare c r1 w 8 I1) as (r2 & R2 & I2 & O2 & F2 & L2);
        [rewrite F1, H2; auto|rewrite L1, H3, O1; clear - Hlen L16; lia|].
      assert (exists t', t = (wr16 (blen es) ++ wr48 sp) ++ t') as (t' & Et).
      { assert (X : pref (wr16 (blen es) ++ wr48 sp) t).
        { destruct (pref_comp (wr16 (blen es) ++ wr48 sp) t (enc_bucket es sp)) as [Y|Y];
            [unfold enc_bucket; rewrite app_assoc; apply pref_app|exists q2; auto|auto|].
          destruct Y as [u Hu]. destruct u; [rewrite app_nil_r in Hu; exists []; rewrite app_nil_r; auto|].
          apply (f_equal blen) in Hu. rewrite !blen_app, blen_wr16, blen_wr48, blen_cons in Hu. clear - Hu L16; lia. }
        destruct X as [t' ->]. eauto. }
      rewrite Et in H5'. rewrite (bdrop_bsub _ _ _ _ _ H5') in R2 by reflexivity.
      rewrite (run_bind_eq _ _ _ _ _ R2). cbv beta iota zeta.
      assert (S1 : rd16 (bsub 0 2 (wr16 (blen es) ++ wr48 sp)) = blen es).
      { replace (bsub 0 2 _) with (wr16 (blen es)) by (symmetry; apply (bsub_app_eq 0 2 []); reflexivity).
        apply rd_wr16. pose proof (cap_le bs). clear - V3 H Hbs2. lia. }
      rewrite S1.
      pose proof (run_br_prepare_short c r2 w (blen es * 18) I2) as R3. rewrite L2, L1, H3, O2, O1 in R3.
      apply (f_equal blen) in Eq. rewrite blen_enc_bucket, blen_app in Eq.
      assert (X : br_offset rd + 8 + 8 + blen es * 18 > blen c).
      { unfold bucket_size in *. clear - Hlen Hl2 Hq2' Eq L0. lia. }
      specialize (R3 ltac:(clear - X; lia)). eexists. rewrite (run_bind_eq _ _ _ _ _ R3). reflexivity. }
  destruct R2 as (b' & R2). split.
  - rewrite (run_bind_eq _ _ _ _ _ R1). cbv beta iota zeta. rewrite (run_bind_eq _ _ _ _ _ R2). reflexivity.
  - intros S HG. eapply safe_skip; [exact R1|apply reads_br_prepare|exact HG|]. cbv beta iota zeta.
    eapply safe_skip; [exact R2|apply reads_bk_read_bulk|exact HG|]. simpl. auto.
Qed.

Lemma replay_run x c q l : forall st w,
  live x c l q st w ->
  exists st' w', loops (recover_step kh (blen (d0 ++ x))) (Datatypes.S (length l)) st w w' (Ok tt) /\
    live x c [] q st' w'.
Proof.
  induction l as [|r l IH]; intros st w Hl.
  - destruct (step_last _ _ _ _ _ Hl) as [Hr _]. exists st, w. split; auto. constructor; auto.
  - destruct (step_one _ _ _ _ _ _ _ Hl) as (st1 & w1 & Hr & Hl1 & _).
    destruct (IH _ _ Hl1) as (st' & w' & Hw & Hl'). exists st', w'. split; auto.
    econstructor; eauto.
Qed.

Lemma replay_safe x c q L st w S :
  c = lhead e p recs T ++ enc_lrecs L ++ q -> Forall valid L -> blen L <= blen T -> cut T q ->
  live x c L q st w -> ISv x c L S ->
  safe ord G (loop (recover_step kh (blen (d0 ++ x))) st) w S
    (fun r w' S' => r = Er EDiverge \/ r = Ok tt /\ ISv x c L S').
Proof.
  intros -> HL HLn Hq Hlv HS. set (c := _ ++ _) in *.
  assert (HG : forall S', ISv x c L S' -> forall v, on_disk S' v -> G v)
    by (intros; eapply ISv_before; eauto).
  apply (safe_loop ord G (fun st w S => (exists l, live x c l q st w /\ incl l L) /\ ISv x c L S)
    (fun r w' S' => r = Ok tt /\ ISv x c L S')).
  - intros st1 w1 S1 ((l & Hl & Hin) & HS1). destruct l as [|r l].
    + destruct (step_last _ _ _ _ _ Hl) as [_ Hs]. eapply safe_weaken; [apply Hs; apply (HG _ HS1)|auto|].
      cbv beta. intros r' w' S' (-> & ->). split; [split; auto|apply (HG _ HS1)].
    + destruct (step_one _ _ _ _ _ _ _ Hl) as (st' & w' & Hr & Hl' & Hs).
      eapply safe_weaken; [apply safe_with_run; apply (Hs L S1 (Hin r (or_introl eq_refl)) HG HS1)|auto|].
      cbv beta. intros r' w2 S' (HS' & Hr2 & _). rewrite Hr in Hr2. injection Hr2; intros; subst.
      split; auto. exists l. split; auto. intros y Hy. apply Hin. right; auto.
  - intros st1 w1 S1 (_ & HS1). apply (HG _ HS1).
  - split; auto. exists L. split; auto. apply incl_refl.
Qed.
End Rec.

(** ** Truncating and clearing the log *)
Lemma torn_trunc_pref d y y' : pref d y -> torn_trunc (blen d) y y' -> pref d y'.
Proof.
  intros Hpr [Hl Hn]. pose proof (pref_len _ _ Hpr) as Hle. apply pref_nth; [lia|].
  intros i Hi. rewrite Hn by lia. apply nth_pref; auto.
Qed.
Lemma btrunc_pref d x : btrunc (blen d) (d ++ x) = d.
Proof.
  unfold btrunc. rewrite btake_app_eq by auto. rewrite blen_app.
  replace (blen d - (blen d + blen x)) with 0 by lia. apply app_nil_r.
Qed.

Section Rec2.
Variables (e : env) (p : dbp).
Hypothesis Hp : dbp_ok p.
Notation bs := (db_block_size p).
Variables (recs : list drec) (T : list bent) (w0 : world).
Hypothesis Hd : disk e p recs T w0.
Notation d0 := (dat0 p recs).
Notation K0 := (key0 e p T).
Notation kmid := (key_mid e p T).
Notation valid := (valid_lrec T).
Notation G := (before e p recs T).

Lemma kmid_trunc l k k' : kmid l k -> torn_trunc (blen K0) k k' -> kmid l k'.
Proof.
  intros [H1 H2] [T1 T2]. split; [lia|]. intros i Hi Ho. rewrite <- H2 by auto. apply T2; lia.
Qed.
Lemma kmid_done k : kmid [] k -> btrunc (blen K0) k = K0.
Proof.
  intros [H1 H2]. apply (nthN_ext _ _ 0).
  - apply blen_btrunc.
  - intros i Hi. rewrite blen_btrunc in Hi. rewrite nthN_btrunc.
    replace (i <? blen K0) with true by lia. apply H2; auto. intros r [].
Qed.

Definition w_done : world := World (Some d0) (Some K0) None.
Definition done_surv (S : surv) : Prop :=
  (forall y, S FDat y -> y = Some d0) /\ (forall y, S FKey y -> y = Some K0) /\
  (forall y, S FLog y -> y = None \/ y = Some []).

Lemma btrunc_0 (l : bytes) : btrunc 0 l = [].
Proof. unfold btrunc. rewrite btake_0, N.sub_0_l. reflexivity. Qed.

(** Clearing the log when the other files are in place. *)
Lemma clear_safe (G0 : world -> Prop) w (S : surv) l :
  (forall v, at_rest e p recs T v -> G0 v) ->
  wget w FDat = Some d0 -> wget w FKey = Some K0 -> wget w FLog = Some l ->
  (forall y, S FDat y -> y = Some d0) -> (forall y, S FKey y -> y = Some K0) ->
  (forall v, on_disk S v -> G0 v) ->
  run recover_clear_log w = (w_done, Ok tt) /\
  safe ord G0 recover_clear_log w S (fun _ _ S' => done_surv S').
Proof.
  intros HG0 W1 W2 W3 S1 S2 HG.
  assert (Rst : forall v y, wget v FDat = Some d0 -> wget v FKey = Some K0 -> wget v FLog = y ->
    y = None \/ y = Some [] -> G0 v).
  { intros v y V1 V2 V3 [-> | ->]; apply HG0; unfold at_rest; splits; auto. right. exists []. split; auto. reflexivity. }
  unfold recover_clear_log. split.
  - erewrite run_ebind_ok by (apply run_trunc; eauto).
    erewrite run_ebind_ok by (eapply run_sync; apply wget_wset_same).
    erewrite run_erase by apply wget_wset_same. rewrite wset_wset.
    f_equal. destruct w as [a b c]. unfold wget in *. cbn in W1, W2. subst. reflexivity.
  - unfold ebind, p_trunc, p_sync, p_erase, do_unit. cbn [bind safe exec sexec fst snd].
    rewrite W3. cbn [bind safe exec sexec fst snd]. rewrite wget_wset_same.
    cbn [bind safe exec sexec fst snd]. rewrite wget_wset_same. cbn [bind safe exec sexec fst snd].
    rewrite btrunc_0.
    splits; auto.
    + intros v Hv. pose proof (Hv FLog) as V3. cbn [sset fname_eqb log_in_order] in V3.
      destruct V3 as [V3|V3].
      * apply HG. intros []; auto; [apply (Hv FDat)|apply (Hv FKey)].
      * eapply Rst; [apply S1, (Hv FDat)|apply S2, (Hv FKey)|reflexivity|auto].
    + intros v Hv. pose proof (Hv FLog) as V3. cbn [sset fname_eqb log_in_order] in V3.
      eapply Rst; [apply S1, (Hv FDat)|apply S2, (Hv FKey)|reflexivity|auto].
    + intros v Hv. pose proof (Hv FLog) as V3. cbn [sset fname_eqb log_in_order] in V3.
      eapply Rst; [apply S1, (Hv FDat)|apply S2, (Hv FKey)|reflexivity|]. destruct V3; auto.
    + unfold done_surv. cbn [sset fname_eqb]. splits; auto. intros y [->| ->]; auto.
Qed.

(** Truncating the files to their sizes before the commit. *)
Lemma trunc_safe w (S : surv) lh x k L q c :
  lh_dat_file_size lh = blen d0 -> lh_key_file_size lh = blen K0 -> blen K0 <> 0 ->
  c = lhead e p recs T ++ enc_lrecs L ++ q -> Forall valid L -> blen L <= blen T -> cut T q ->
  wget w FDat = Some (d0 ++ x) -> wget w FKey = Some k -> kmid [] k -> wget w FLog = Some c ->
  S2 p recs (kmid L) (eq c) S ->
  run (recover_trunc_files lh) w = (World (Some d0) (Some K0) (Some c), Ok tt) /\
  safe ord G (recover_trunc_files lh) w S (fun _ _ S' =>
    (forall y, S' FDat y -> y = Some d0) /\ (forall y, S' FKey y -> y = Some K0) /\
    (forall y, S' FLog y -> y = Some c)).
Proof.
  intros E1 E2 Hne Ec HL HLn Hq W1 W2 Hk W3 (A & B & C).
  unfold recover_trunc_files. rewrite E1, E2. apply N.eqb_neq in Hne. rewrite Hne. cbn [negb].
  pose proof (btrunc_pref d0 x) as Tp. pose proof (kmid_done k Hk) as Tk. split.
  - erewrite run_ebind_ok by (apply run_trunc; eauto).
    erewrite run_ebind_ok by (eapply run_sync; apply wget_wset_same).
    erewrite run_ebind_ok by (apply run_trunc; rewrite wget_wset_other by discriminate; eauto).
    erewrite run_sync by (apply wget_wset_same). rewrite Tp, Tk.
    f_equal. destruct w as [a b c']. unfold wget in *. cbn in W1, W2, W3. subst. reflexivity.
  - assert (Mid : forall v d k', wget v FDat = Some d -> pref d0 d -> wget v FKey = Some k' -> kmid L k' ->
      wget v FLog = Some c -> G v).
    { intros v d k' V1 [t ->] V2 V3 V4. right. exists t, k', L, q. subst c. splits; auto. }
    unfold ebind, p_trunc, p_sync, do_unit. cbn [bind safe exec sexec fst snd].
    rewrite W1. cbn [bind safe exec sexec fst snd]. rewrite wget_wset_same.
    cbn [bind safe exec sexec fst snd]. rewrite wget_wset_other by discriminate. rewrite W2.
    cbn [bind safe exec sexec fst snd]. rewrite wget_wset_same. cbn [bind safe exec sexec fst snd].
    rewrite Tp, Tk.
    splits; auto.
    + intros v Hv. destruct (A _ (Hv FDat)) as (d & V1 & V2). destruct (B _ (Hv FKey)) as (k' & V3 & V4).
      destruct (C _ (Hv FLog)) as (c' & V5 & <-). eauto.
    + intros v Hv. pose proof (Hv FDat) as V0. cbn [sset fname_eqb log_in_order] in V0.
      destruct (B _ (Hv FKey)) as (k' & V3 & V4).
      destruct (C _ (Hv FLog)) as (c' & V5 & <-). destruct V0 as [V0|(y & y' & Hy & V0 & Ht)].
      * destruct (A _ V0) as (d & V1 & V2). eauto.
      * destruct (A _ Hy) as (d & V1 & V2). injection V1 as ->.
        eapply Mid; [exact V0|eapply torn_trunc_pref; eauto|eauto|eauto|eauto].
    + intros v Hv. pose proof (Hv FDat) as V0. cbn [sset fname_eqb log_in_order] in V0.
      destruct (B _ (Hv FKey)) as (k' & V3 & V4). destruct (C _ (Hv FLog)) as (c' & V5 & <-).
      eapply Mid; [exact V0|apply pref_refl|eauto|eauto|eauto].
    + intros v Hv. pose proof (Hv FDat) as V0. pose proof (Hv FKey) as V1. cbn [sset fname_eqb log_in_order] in V0, V1.
      destruct (C _ (Hv FLog)) as (c' & V5 & <-). destruct V1 as [V1|(y & y' & Hy & V1 & Ht)].
      * destruct (B _ V1) as (k' & V3 & V4). eapply Mid; [exact V0|apply pref_refl|eauto|eauto|eauto].
      * destruct (B _ Hy) as (k' & V3 & V4). injection V3 as ->.
        eapply Mid; [exact V0|apply pref_refl|exact V1|eapply kmid_trunc; eauto|eauto].
    + intros v Hv. pose proof (Hv FDat) as V0. pose proof (Hv FKey) as V1. cbn [sset fname_eqb log_in_order] in V0, V1.
      destruct (C _ (Hv FLog)) as (c' & V5 & <-).
      eapply Mid; [exact V0|apply pref_refl|exact V1|apply key_mid_refl|eauto].
    + intros y Hy. destruct (C _ Hy) as (c' & V5 & <-). auto.
Qed.

Hypothesis Hf1 : blen d0 < 18446744073709551616.
Hypothesis Hf2 : blen K0 < 18446744073709551616.

Lemma kmid_head l k : kmid l k -> exists t, k = db_kb e p ++ t.
Proof using Hp Hd.
  intros [H1 H2]. pose proof (K0_len e p Hp recs T w0 Hd) as HK. pose proof (T_pos e p Hp recs T w0 Hd) as HT.
  destruct (bs_pos p Hp) as [Hb _]. pose proof (p_kb e p Hp) as Hkb. cbn [db_kh kh_block_size] in Hkb.
  assert (X : pref (db_kb e p) k); [|exact X].
  apply pref_nth.
  - rewrite Hkb. clear - HK H1 HT. nia.
  - rewrite Hkb. intros i Hi. rewrite H2.
    + Local Transparent key0. unfold key0, kfile. Local Opaque key0. apply nthN_app_l. rewrite Hkb. auto.
    + rewrite HK. clear - Hi HT. nia.
    + intros r _. left. clear - Hi. nia.
Qed.

Definition lh0 : log_header :=
  LogHeader magic_log currentVersion (db_uid p) (db_appnum p) (db_key_size p) (db_salt p)
    (pepper (e_hasher e) (db_salt p)) bs (blen K0) (blen d0).

Lemma read_lh w t : wget w FLog = Some (lhead e p recs T ++ t) ->
  run read_log_header w = (w, Ok lh0).
Proof using Hp Hd Hf1 Hf2.
  intros Hw. rewrite (lhead_eq e p recs T 0) in Hw.
  pose proof (K0_len e p Hp recs T w0 Hd) as HK. pose proof (blen_dat0 p Hp recs) as HD.
  rewrite (run_read_log_header w _ t) with (2 := Hw).
  - unfold lh0. rewrite HK, HD. reflexivity.
  - destruct Hp as (P1 & P2 & P3 & P4 & P5 & P6 & _).
    unfold log_fits, commit_log_header. cbn [lh_version lh_uid lh_appnum lh_key_size lh_salt lh_pepper lh_block_size
      lh_key_file_size lh_dat_file_size db_kh kh_uid kh_appnum kh_key_size kh_salt kh_pepper kh_block_size].
    rewrite <- HK, <- HD. splits; auto. reflexivity. apply pepper_lt.
Qed.

Lemma verify_lh : verify_log (e_hasher e) lh0 = Ok tt.
Proof using Hp.
  unfold verify_log, lh0. cbn [lh_type lh_version lh_pepper lh_salt lh_key_size].
  rewrite beq_refl, !N.eqb_refl. destruct Hp as (_ & _ & P3 & _).
  replace (db_key_size p <? 1) with false by (clear - P3; lia). reflexivity.
Qed.

Lemma verify_kl B : verify_key_log (e_hasher e) (db_kh e p B) lh0 = Ok tt.
Proof using Hp.
  unfold verify_key_log. rewrite verify_lh. unfold rbind, lh0.
  cbn [lh_uid lh_appnum lh_key_size lh_salt lh_pepper lh_block_size db_kh kh_uid kh_appnum kh_key_size kh_salt
       kh_pepper kh_block_size].
  rewrite !N.eqb_refl. reflexivity.
Qed.

Lemma dat0_head x : exists t, d0 ++ x = db_hdr p ++ t.
Proof using. Local Transparent dat0. unfold dat0. Local Opaque dat0. rewrite <- app_assoc. eauto. Qed.

(** The first part of recovery. *)
Lemma recover_start (G0 : world -> Prop) w (S : surv) x k l :
  wget w FDat = Some (d0 ++ x) -> wget w FKey = Some k -> kmid l k -> (forall v, on_disk S v -> G0 v) ->
  let rest := bind (p_open FLog) (fun a =>
    match a with
    | Er ENoEnt => pret tt
    | Er er => pfail er
    | Ok _ =>
      logFileSize <- p_size FLog ;;
      bind read_log_header (fun a =>
      match a with
      | Er short_read => recover_clear_log
      | Er er => pfail er
      | Ok lh =>
        plift (verify_log (e_hasher e) lh) ;;;
        (if lh_key_file_size lh =? 0 then pret tt
         else recover_replay e (db_dh p) lh (blen (d0 ++ x)) logFileSize) ;;;
        recover_trunc_files lh ;;;
        recover_clear_log
      end)
    end) in
  run (recover e) w = run rest w /\
  forall Q, safe ord G0 rest w S Q -> safe ord G0 (recover e) w S Q.
Proof using Hp Hd.
  intros D K Hk HG rest. destruct (dat0_head x) as (t & Et).
  assert (D' : wget w FDat = Some (db_hdr p ++ t)) by (rewrite D, Et; auto).
  assert (Hgt : (blen k <=? key_hdr_size) = false).
  { destruct Hk as [H1 _]. rewrite (K0_len e p Hp recs T w0 Hd) in H1. destruct (bs_pos p Hp) as [Hb _].
    pose proof (T_pos e p Hp recs T w0 Hd) as HT. unfold key_hdr_size. apply N.leb_gt. clear - H1 Hb HT. nia. }
  unfold recover. split.
  - rewrite (run_ebind_ok _ _ _ _ _ (run_open _ _ _ D)).
    rewrite (run_ebind_ok _ _ _ _ _ (run_size _ _ _ D)).
    rewrite (run_ebind_ok _ _ _ _ _ (read_dh p Hp _ _ D')).
    rewrite (verify_dat_ok p Hp). erewrite run_ebind_ok by reflexivity.
    rewrite (run_ebind_ok _ _ _ _ _ (run_open _ _ _ K)).
    rewrite (run_ebind_ok _ _ _ _ _ (run_size _ _ _ K)).
    rewrite Hgt. reflexivity.
  - intros Q Hs.
    eapply safe_eskip; [exact (run_open _ _ _ D)|apply reads_open|exact HG|].
    eapply safe_eskip; [exact (run_size _ _ _ D)|apply reads_size|exact HG|].
    eapply safe_eskip; [exact (read_dh p Hp _ _ D')|apply reads_dh|exact HG|].
    rewrite (verify_dat_ok p Hp).
    eapply safe_eskip; [reflexivity|apply reads_lift|exact HG|].
    eapply safe_eskip; [exact (run_open _ _ _ K)|apply reads_open|exact HG|].
    eapply safe_eskip; [exact (run_size _ _ _ K)|apply reads_size|exact HG|].
    rewrite Hgt. exact Hs.
Qed.

Lemma recover_midway w (S : surv) :
  midway e p recs T w -> (forall f c, S f c -> c = wget w f) ->
  run (recover e) w = (w_done, Ok tt) /\
  safe ord G (recover e) w S (fun _ _ S' => done_surv S').
Proof using Hp Hd Hf1 Hf2.
  intros (x & k & L & q & D & K & Lg & HL & HLn & Hq & Hk) HS.
  set (c := lhead e p recs T ++ enc_lrecs L ++ q) in *.
  assert (HG0 : forall S', ISv e p recs T x c L S' -> forall v, on_disk S' v -> G v)
    by (intros S' HS'; eapply ISv_before; eauto).
  assert (HS0 : ISv e p recs T x c L S).
  { unfold ISv. splits; intros y Hy; apply HS in Hy; rewrite Hy; eauto. }
  pose proof (HG0 _ HS0) as HG.
  destruct (recover_start G w S x k L D K Hk HG) as [Er Es]. cbv zeta in Er, Es. rewrite Er.
  pose proof (K0_len e p Hp recs T w0 Hd) as HK. pose proof (T_pos e p Hp recs T w0 Hd) as HT.
  destruct (bs_pos p Hp) as [Hb Hb2].
  assert (HK0 : blen K0 <> 0) by (rewrite HK; clear - HT Hb; nia).
  destruct (kmid_head L k Hk) as (t & Ek).
  set (B := buckets_of_size (blen k) bs).
  assert (HB : blen T <= B).
  { unfold B, buckets_of_size. destruct Hk as [H1 _]. rewrite HK in H1.
    replace (bs <? blen k) with true by (clear - H1 Hb HT; nia).
    replace (0 <? bs) with true by (clear - Hb; lia).
    apply N.div_le_lower_bound; [clear - Hb; lia|]. clear - H1 Hb. nia. }
  assert (RK : forall w', wget w' FKey = Some k -> run read_key_header w' = (w', Ok (db_kh e p B))).
  { intros w' Hw'. rewrite Ek in Hw'. rewrite (run_read_key_header w' (db_kh e p 0) t).
    - change (enc_key_header_block (db_kh e p 0)) with (db_kb e p). rewrite <- Ek. reflexivity.
    - apply p_key_fits; auto.
    - exact Hw'. }
  pose proof (read_lh w _ Lg) as RL.
  assert (HB1 : 1 <= B) by (clear - HB HT; lia).
  (* replay *)
  set (st0 := (bk_of_blob (fresh e bs), br_make FLog log_hdr_size (blen c) (1024 * bs))).
  assert (Hc : blen c = log_hdr_size + (blen (enc_lrecs L) + blen q)).
  { unfold c. rewrite !blen_app, blen_lhead. auto. }
  assert (Hlv : live e p recs T x c L q st0 w).
  { unfold st0. constructor; cbn [fst snd]; [| | | | | |exact D|exact Lg| |exact HL|exact Hq].
    - apply br_make_inv; clear - Hc; lia.
    - reflexivity.
    - reflexivity.
    - rewrite br_make_offset. clear - Hc; lia.
    - rewrite br_make_offset. unfold c. apply bdrop_app_eq. rewrite blen_lhead. auto.
    - cbn [bk_of_blob bk_blob]. apply blen_fresh.
    - eauto. }
  destruct (replay_run e p Hp recs T w0 Hd B HB x c q L st0 w Hlv) as (st1 & w1 & Hlp & Hl1).
  assert (Hrl : run (loop (recover_step (db_kh e p B) (blen (d0 ++ x))) st0) w = (w1, Ok tt)).
  { apply (loop_run _ _ _ _ _ _ Hlp). destruct (disk_pow e p Hp _ _ _ Hd) as (_ & X & _).
    unfold blen in HLn, X. clear - HLn X. unfold blen in *. lia. }
  assert (Hrr : run (recover_replay e (db_dh p) lh0 (blen (d0 ++ x)) (blen c)) w = (w1, Ok tt)).
  { unfold recover_replay. rewrite (run_ebind_ok _ _ _ _ _ (RK _ K)).
    rewrite (verify_key_ok e p Hp B HB1). erewrite run_ebind_ok by reflexivity.
    rewrite (verify_dat_key_ok e p Hp B HB1). erewrite run_ebind_ok by reflexivity.
    rewrite (verify_kl B). erewrite run_ebind_ok by reflexivity. cbv zeta. exact Hrl. }
  assert (Hrs : safe ord G (recover_replay e (db_dh p) lh0 (blen (d0 ++ x)) (blen c)) w S
    (fun r w' S' => r = Err.Er EDiverge \/ r = Ok tt /\ ISv e p recs T x c L S')).
  { unfold recover_replay.
    eapply safe_eskip; [exact (RK _ K)|apply reads_kh|exact HG|].
    rewrite (verify_key_ok e p Hp B HB1). eapply safe_eskip; [reflexivity|apply reads_lift|exact HG|].
    rewrite (verify_dat_key_ok e p Hp B HB1). eapply safe_eskip; [reflexivity|apply reads_lift|exact HG|].
    rewrite (verify_kl B). eapply safe_eskip; [reflexivity|apply reads_lift|exact HG|]. cbv zeta.
    eapply (replay_safe e p Hp recs T w0 Hd B HB x c q L); eauto. }
  destruct Hl1 as [_ _ _ _ _ _ D1 L1 (k1 & K1 & Hk1) _ _].
  set (w2 := World (Some d0) (Some K0) (Some c)).
  assert (Elk : (lh_key_file_size lh0 =? 0) = false) by (apply N.eqb_neq; exact HK0).
  assert (HT2 : forall S1, ISv e p recs T x c L S1 ->
    run (recover_trunc_files lh0) w1 = (w2, Ok tt) /\
    safe ord G (recover_trunc_files lh0) w1 S1 (fun _ _ S' =>
      (forall y, S' FDat y -> y = Some d0) /\ (forall y, S' FKey y -> y = Some K0) /\
      (forall y, S' FLog y -> y = Some c))).
  { intros S1 (A1 & A2 & A3). apply (trunc_safe w1 S1 lh0 x k1 L q c); auto.
    unfold S2. splits.
    - intros y Hy. apply A1 in Hy. exists (d0 ++ x). split; auto. apply pref_app.
    - auto.
    - intros y Hy. apply A3 in Hy. exists c. auto. }
  assert (HC : forall S1 : surv, (forall y, S1 FDat y -> y = Some d0) -> (forall y, S1 FKey y -> y = Some K0) ->
    (forall y, S1 FLog y -> y = Some c) ->
    run recover_clear_log w2 = (w_done, Ok tt) /\
    safe ord G recover_clear_log w2 S1 (fun _ _ S' => done_surv S')).
  { intros S1 A1 A2 A3. apply (clear_safe G w2 S1 c); auto.
    { intros v Hv. left. exact Hv. }
    intros v Hv. right. exists [], K0, L, q. rewrite app_nil_r. splits; auto.
    apply key_mid_refl. }
  split.
  - rewrite (run_bind_eq _ _ _ _ _ (run_open _ _ _ Lg)). cbv beta iota.
    rewrite (run_ebind_ok _ _ _ _ _ (run_size _ _ _ Lg)).
    rewrite (run_bind_eq _ _ _ _ _ RL). cbv beta iota. rewrite verify_lh.
    erewrite run_ebind_ok by reflexivity. rewrite Elk.
    rewrite (run_ebind_ok _ _ _ _ _ Hrr).
    rewrite (run_ebind_ok _ _ _ _ _ (proj1 (HT2 _ HS0))).
    destruct (HC (durable w2)) as [R _]; auto.
  - apply Es.
    eapply safe_skip; [exact (run_open _ _ _ Lg)|apply reads_open|exact HG|]. cbv beta iota.
    eapply safe_eskip; [exact (run_size _ _ _ Lg)|apply reads_size|exact HG|].
    eapply safe_skip; [exact RL|apply reads_lh|exact HG|]. cbv beta iota. rewrite verify_lh.
    eapply safe_eskip; [reflexivity|apply reads_lift|exact HG|]. rewrite Elk.
    eapply safe_ebind_run; [exact Hrr|exact Hrs|]. cbv beta. intros S1 [X|[_ HS1]]; [discriminate X|].
    destruct (HT2 _ HS1) as [R2 Sf2].
    eapply safe_ebind_run; [exact R2|exact Sf2|]. cbv beta. intros S3 (A1 & A2 & A3).
    apply HC; auto.
Qed.

(** What may be found on the disk when the log is not in use. *)
Definition quiet (w : world) (S : surv) : Prop :=
  (forall y, S FDat y -> y = Some d0) /\ (forall y, S FKey y -> y = Some K0) /\
  (forall y, S FLog y -> y = None \/ exists l, y = Some l /\ blen l < log_hdr_size) /\
  (wget w FLog = None -> forall y, S FLog y -> y = None \/ y = Some []).

Lemma quiet_rest (G0 : world -> Prop) w (S : surv) :
  (forall v, at_rest e p recs T v -> G0 v) -> quiet w S -> forall v, on_disk S v -> G0 v.
Proof using.
  intros HG0 (H1 & H2 & H3 & _) v Hv. apply HG0. unfold at_rest. splits; auto.
Qed.

Lemma quiet_durable w (S : surv) :
  at_rest e p recs T w -> (forall f c, S f c -> c = wget w f) -> quiet w S.
Proof using.
  intros (D & K & Lg) HS. unfold quiet. splits; intros; try (apply HS in H; congruence).
  - apply HS in H. rewrite H. exact Lg.
  - apply HS in H0. left. congruence.
Qed.

Lemma recover_at_rest (G0 : world -> Prop) w (S : surv) :
  (forall v, at_rest e p recs T v -> G0 v) ->
  at_rest e p recs T w -> quiet w S ->
  run (recover e) w = (w_done, Ok tt) /\
  safe ord G0 (recover e) w S (fun _ _ S' => done_surv S').
Proof using Hp Hd.
  intros HG0 (D & K & Lg) HS. pose proof (quiet_rest G0 w S HG0 HS) as HG. destruct HS as (HS1 & HS2 & HS3 & HS4).
  assert (D' : wget w FDat = Some (d0 ++ [])) by (rewrite app_nil_r; auto).
  destruct (recover_start G0 w S [] K0 [] D' K (key_mid_refl e p T []) HG) as [Er Es]. cbv zeta in Er, Es. rewrite Er.
  destruct Lg as [Lg|(l & Lg & Hl)].
  - split.
    + rewrite (run_bind_eq _ _ _ _ _ (run_open_none _ _ Lg)). unfold w_done.
      destruct w as [a b c]. unfold wget in *. cbn in D, K, Lg. subst. reflexivity.
    + apply Es. eapply safe_skip; [exact (run_open_none _ _ Lg)|apply reads_open|exact HG|]. cbv beta iota.
      simpl. split; auto. unfold done_surv. splits; auto.
  - assert (X : run read_log_header w = (w, Err.Er short_read)).
    { unfold read_log_header. erewrite run_ebind_er; [reflexivity|]. eapply run_read_short; eauto. discriminate. }
    destruct (clear_safe G0 w S l HG0 D K Lg) as [C1 C2]; auto.
    split.
    + rewrite (run_bind_eq _ _ _ _ _ (run_open _ _ _ Lg)). cbv beta iota.
      rewrite (run_ebind_ok _ _ _ _ _ (run_size _ _ _ Lg)).
      rewrite (run_bind_eq _ _ _ _ _ X). exact C1.
    + apply Es. eapply safe_skip; [exact (run_open _ _ _ Lg)|apply reads_open|exact HG|]. cbv beta iota.
      eapply safe_eskip; [exact (run_size _ _ _ Lg)|apply reads_size|exact HG|].
      eapply safe_skip; [exact X|apply reads_lh|exact HG|]. exact C2.
Qed.

Lemma recover_before w (S : surv) :
  G w -> (forall f c, S f c -> c = wget w f) ->
  run (recover e) w = (w_done, Ok tt) /\
  safe ord G (recover e) w S (fun _ _ S' => done_surv S').
Proof using Hp Hd Hf1 Hf2.
  intros [H|H] HS; [|apply recover_midway]; auto.
  apply recover_at_rest; auto. { intros v Hv. left. exact Hv. } apply quiet_durable; auto.
Qed.

(** Opening after a recovery that succeeds. *)
Definition s_done : store :=
  Store (db_kh e p (blen T)) pool_empty pool_empty [] (db_thresh p / 2) (db_thresh p)
    (blen T) (ceil_pow2 (blen T)) None.
Definition w_open : world := World (Some d0) (Some K0) (Some []).

Lemma disk_done l : disk e p recs T (World (Some d0) (Some K0) l).
Proof using Hd.
  destruct Hd as [H1 H2 H3 H4 H5 H6 H7]. Local Transparent dat0 key0.
  constructor; auto. Local Opaque dat0 key0.
Qed.

Lemma open_safe (G0 : world -> Prop) w (S : surv) :
  (forall v, at_rest e p recs T v -> G0 v) ->
  run (recover e) w = (w_done, Ok tt) ->
  safe ord G0 (recover e) w S (fun _ _ S' => done_surv S') ->
  run (store_open e) w = (w_open, Ok s_done) /\ sinv e p recs T s_done w_open /\
  safe ord G0 (store_open e) w S (fun _ _ S' => done_surv S').
Proof using Hp Hd.
  intros HG0 Hr Hs.
  destruct (open_after_recover e p Hp recs T w w_done Hr (disk_done None) eq_refl) as [Ho Hi].
  splits; auto.
  assert (Hdone : forall S', done_surv S' -> forall v, on_disk S' v -> G0 v).
  { intros S' (A & B & C) v Hv. apply HG0. unfold at_rest. splits; auto.
    destruct (C _ (Hv FLog)) as [E|E]; auto. right. exists []. split; auto. reflexivity. }
  unfold store_open. eapply safe_ebind_run; [exact Hr|exact Hs|]. cbv beta. intros S1 HS1.
  pose proof (Hdone _ HS1) as HG1.
  eapply safe_eskip; [exact (run_open FDat w_done _ eq_refl)|apply reads_open|exact HG1|].
  eapply safe_eskip; [exact (run_open FKey w_done _ eq_refl)|apply reads_open|exact HG1|].
  set (S3 := sexec ord (IoCreate FLog) w_done S1).
  assert (HS3 : done_surv S3).
  { destruct HS1 as (A & B & C). unfold done_surv, S3. cbn [sexec wget w_done w_log sset fname_eqb].
    splits; auto. intros y [Hy|Hy]; auto. }
  pose proof (Hdone _ HS3) as HG3.
  eapply safe_ebind_run with (Q1 := fun _ _ S' => done_surv S'); [exact (run_create FLog w_done eq_refl)| |].
  { unfold p_create, do_unit. cbn [safe]. split; [exact HG1|]. change (snd (exec (IoCreate FLog) w_done)) with (ROk 0 []).
    cbn [safe]. split; [exact HG3|]. exact HS3. }
  cbv beta. intros S4 HS4. pose proof (Hdone _ HS4) as HG4.
  change (wset w_done FLog (Some [])) with w_open.
  pose proof (disk_done (Some [])) as Hd1. fold w_open in Hd1.
  pose proof (T_pos e p Hp recs T w0 Hd) as HT.
  eapply safe_eskip; [exact (read_dh p Hp w_open _ (dk_dat _ _ _ _ _ Hd1))|apply reads_dh|exact HG4|].
  rewrite (verify_dat_ok p Hp). eapply safe_eskip; [reflexivity|apply reads_lift|exact HG4|].
  eapply safe_eskip; [exact (read_kh e p Hp _ _ w_open Hd1)|apply reads_kh|exact HG4|].
  rewrite (verify_key_ok e p Hp _ HT). eapply safe_eskip; [reflexivity|apply reads_lift|exact HG4|].
  rewrite (verify_dat_key_ok e p Hp _ HT). eapply safe_eskip; [reflexivity|apply reads_lift|exact HG4|].
  cbv zeta. destruct (kh_buckets (db_kh e p (blen T)) <? 1); simpl; split; auto.
Qed.

Lemma open_before w :
  G w -> run (store_open e) w = (w_open, Ok s_done) /\ sinv e p recs T s_done w_open /\
  safe ord G (store_open e) w (durable w) (fun _ _ S' => done_surv S').
Proof using Hp Hd Hf1 Hf2.
  intros Hw. destruct (recover_before w (durable w) Hw ltac:(auto)) as [Hr Hs].
  apply open_safe; auto. intros v Hv. left. exact Hv.
Qed.

(** Any number of stopped recoveries. *)
Lemma interrupted_before w w' : G w -> interrupted ord e w w' -> G w'.
Proof using Hp Hd Hf1 Hf2.
  intros Hw Hi. induction Hi as [w|w w1 w' Hc Hi IH|w w1 w' Hc Hi IH]; auto; apply IH.
  - eapply safe_crash; [|exact Hc]. apply (proj2 (recover_before w (durable w) Hw ltac:(auto))).
  - eapply safe_crash; [|exact Hc]. apply (open_before w Hw).
Qed.
End Rec2.

(** The same for a database at rest; its size does not matter. *)
Section Rest.
Variables (e : env) (p : dbp).
Hypothesis Hp : dbp_ok p.
Variables (recs : list drec) (T : list bent) (w0 : world).
Hypothesis Hd : disk e p recs T w0.
Notation G := (at_rest e p recs T).

Lemma open_rest (G0 : world -> Prop) w (S : surv) :
  (forall v, G v -> G0 v) -> G w -> quiet e p recs T w S ->
  run (store_open e) w = (w_open e p recs T, Ok (s_done e p T)) /\
  sinv e p recs T (s_done e p T) (w_open e p recs T) /\
  safe ord G0 (store_open e) w S (fun _ _ S' => done_surv e p recs T S').
Proof using Hp Hd.
  intros HG0 Hw HS. destruct (recover_at_rest e p Hp recs T w0 Hd G0 w S HG0 Hw HS) as [Hr Hs].
  eapply open_safe; eauto.
Qed.

Lemma recover_rest (G0 : world -> Prop) w (S : surv) :
  (forall v, G v -> G0 v) -> G w -> quiet e p recs T w S ->
  run (recover e) w = (w_done e p recs T, Ok tt) /\
  safe ord G0 (recover e) w S (fun _ _ S' => done_surv e p recs T S').
Proof using Hp Hd. intros. eapply recover_at_rest; eauto. Qed.

Lemma interrupted_rest w w' : G w -> interrupted ord e w w' -> G w'.
Proof using Hp Hd.
  intros Hw Hi. induction Hi as [w|w w1 w' Hc Hi IH|w w1 w' Hc Hi IH]; auto; apply IH.
  - eapply safe_crash; [|exact Hc]. apply (recover_rest G w (durable w)); auto. apply quiet_durable; auto.
  - eapply safe_crash; [|exact Hc]. apply (open_rest G w (durable w)); auto. apply quiet_durable; auto.
Qed.
End Rest.
