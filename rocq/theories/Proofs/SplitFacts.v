(** Adding entries to buckets, splitting buckets. *)
From Verif Require Import Model.Bytes Model.Err Model.Field Model.Format Model.IO
  Model.BulkIO Model.Bucket Model.Pool Model.Store
  Proofs.BytesFacts Proofs.FieldFacts Proofs.IOFacts Proofs.BucketFacts Proofs.BulkFacts
  Proofs.HashFacts Proofs.Table Proofs.Lookup.

Lemma filter_sorted f es : ssorted es -> ssorted (filter f es).
Proof.
  induction 1 as [|x es Hs IH Hx]; simpl; [constructor|].
  destruct (f x); auto. constructor; auto.
  rewrite Forall_forall in *. intros y Hy. apply filter_In in Hy as [Hy _]. auto.
Qed.

Lemma filter_Forall {A} (f : A -> bool) (Q : A -> Prop) l : Forall Q l -> Forall Q (filter f l).
Proof.
  rewrite !Forall_forall. intros Hl x Hx. apply filter_In in Hx as [Hx _]. auto.
Qed.

Lemma filter_perm {A} (f : A -> bool) l l' : Permutation l l' -> Permutation (filter f l) (filter f l').
Proof.
  induction 1 as [|x l l' Hp IH|x y l|l l' l'' H1 IH1 H2 IH2]; simpl; auto.
  - destruct (f x); auto.
  - destruct (f x), (f y); auto. apply perm_swap.
  - eapply perm_trans; eauto.
Qed.

Lemma filter_blen {A} (f : A -> bool) l : blen (filter f l) <= blen l.
Proof.
  induction l as [|x l IH]; simpl; [lia|]. rewrite blen_cons. destruct (f x); rewrite ?blen_cons; lia.
Qed.

Lemma blen_perm {A} (l l' : list A) : Permutation l l' -> blen l = blen l'.
Proof. intros Hp. unfold blen. rewrite (Permutation_length Hp). auto. Qed.

Lemma ents_ok_filter f es : ents_ok es -> ents_ok (filter f es).
Proof. intros [A B]. split; [apply filter_sorted; auto|apply filter_Forall; auto]. Qed.

Lemma ents_ok_ins es en : ents_ok es -> entry_ok en -> ents_ok (ins es en).
Proof.
  intros [A B] C. split; [apply ins_sorted; auto|].
  eapply Permutation_Forall; [symmetry; apply ins_perm|]. constructor; auto.
Qed.

Lemma ents_ok_nil : ents_ok [].
Proof. split; constructor. Qed.

(** The spill records from [base] on have 48-bit offsets. *)
Definition low (base : N) (recs : list drec) : Prop :=
  forall o es sp, In (o, SRec es sp) (placed recs) -> base <= o -> o < 281474976710656.

Lemma low_data base recs k v : low base recs -> low base (recs ++ [DRec k v]).
Proof.
  intros HL o es sp Hin. rewrite placed_app in Hin. apply in_app_iff in Hin as [Hin|[Hin|[]]]; [|discriminate].
  exact (HL o es sp Hin).
Qed.

Lemma low_spill base recs es sp : low base recs -> dat_hdr_size + blen (enc_recs recs) < 281474976710656 ->
  low base (recs ++ [SRec es sp]).
Proof.
  intros HL Hb o es' sp' Hin. rewrite placed_app in Hin. apply in_app_iff in Hin as [Hin|[Hin|[]]].
  - exact (HL o es' sp' Hin).
  - injection Hin as <- _ _. intros _. exact Hb.
Qed.

Lemma low_app recs x : low 0 recs -> low (dat_hdr_size + blen (enc_recs recs)) (recs ++ x) -> low 0 (recs ++ x).
Proof.
  intros H0 H1 o es sp Hin Ho. rewrite placed_app in Hin. apply in_app_iff in Hin as [Hin|Hin].
  - exact (H0 o es sp Hin Ho).
  - apply (H1 o es sp); [rewrite placed_app; apply in_app_iff; right; exact Hin|]. apply place_In in Hin. apply Hin.
Qed.

Lemma low_init base recs : dat_hdr_size + blen (enc_recs recs) <= base -> low base recs.
Proof.
  intros Hb o es sp Hin Ho. apply place_In in Hin as (_ & Hin & _).
  assert (0 < blen (enc_rec (SRec es sp))) by (cbn [enc_rec]; rewrite blen_app, blen_wr48; lia). lia.
Qed.

Section Split.
Variables (e : env) (kh : key_header).
Let bs := kh_block_size kh.
Hypothesis Hcap : 1 <= bucket_capacity bs.
Hypothesis Hbs : bs <= 65535.
Hypothesis Hkc : kh_capacity kh = bucket_capacity bs.

Lemma split_own_ok n2 B M fuel : forall i b1 es1 sp1 b2 es2 sp2,
  bk_rep bs b1 es1 sp1 -> bk_rep bs b2 es2 sp2 -> ents_ok es1 -> ents_ok es2 ->
  i <= blen es1 -> fuel = N.to_nat (blen es1 - i) ->
  blen es2 + (blen es1 - i) <= bucket_capacity bs ->
  exists b1' b2' es2', split_own fuel n2 B M b1 b2 i = Ok (b1', b2') /\
    bk_rep bs b1' (btake i es1 ++ filter (fun en => negb (mine B M n2 en)) (bdrop i es1)) sp1 /\
    bk_rep bs b2' es2' sp2 /\ ents_ok es2' /\
    Permutation es2' (filter (mine B M n2) (bdrop i es1) ++ es2).
Proof.
  induction fuel as [|fuel IH]; intros i b1 es1 sp1 b2 es2 sp2 R1 R2 O1 O2 Hi Hf Hc.
  - assert (i = blen es1) by lia. subst i. exists b1, b2, es2. split; [reflexivity|].
    rewrite btake_all, bdrop_all by lia. simpl. rewrite app_nil_r. auto.
  - assert (Hlt : i < blen es1) by lia.
    cbn [split_own]; cbv zeta. rewrite (bk_at_rep _ _ _ _ _ R1 Hlt).
    rewrite (bdrop_nth _ _ en0 Hlt). set (en := nthN es1 i en0).
    assert (Hen : entry_ok en).
    { destruct O1 as [_ O1]. rewrite Forall_forall in O1. apply O1, nthN_In; auto. }
    cbn [filter]. change (bucket_index (en_hash en) B M =? n2) with (mine B M n2 en).
    destruct (mine B M n2 en) eqn:E.
    + assert (Hen' : entry_ok (Entry (en_off en) (en_size en) (en_hash en))) by (destruct en; exact Hen).
      destruct (bk_insert_rep bs b2 es2 sp2 (en_off en) (en_size en) (en_hash en) R2 (proj1 O2)
                  ltac:(lia) Hbs Hen') as (b2' & -> & R2').
      cbn [rbind negb].
      replace (Entry (en_off en) (en_size en) (en_hash en)) with en in R2' by (destruct en; reflexivity).
      pose proof (erase_rep _ _ _ _ _ R1 Hlt) as R1'.
      assert (Ht : btake i (btake i es1 ++ bdrop (i + 1) es1) = btake i es1)
        by (apply btake_app_eq; rewrite blen_btake; lia).
      assert (Hd : bdrop i (btake i es1 ++ bdrop (i + 1) es1) = bdrop (i + 1) es1)
        by (apply bdrop_app_eq; rewrite blen_btake; lia).
      assert (Hl : blen (btake i es1 ++ bdrop (i + 1) es1) = blen es1 - 1)
        by (rewrite blen_app, blen_btake, blen_bdrop; lia).
      assert (O1' : ents_ok (btake i es1 ++ bdrop (i + 1) es1)).
      { destruct O1 as [S1 F1]. split.
        - clear - S1. unfold btake, bdrop. replace (N.to_nat (i + 1)) with (Datatypes.S (N.to_nat i)) by lia.
          generalize (N.to_nat i). clear i. induction S1 as [|x l S1 IH F]; intros [|n]; simpl; auto; try constructor.
          + apply IH.
          + rewrite Forall_forall in *. intros y Hy. apply F.
            apply in_app_iff in Hy as [Hy|Hy].
            * rewrite <- (firstn_skipn n l). apply in_app_iff; auto.
            * rewrite <- (firstn_skipn (Datatypes.S n) l). apply in_app_iff; auto.
        - apply (rep_ok _ _ _ _ R1'). }
      destruct (IH i (bk_erase b1 i) _ sp1 b2' (ins es2 en) sp2 R1' R2' O1' (ents_ok_ins _ _ O2 Hen))
        as (b1f & b2f & es2f & Heq & Q1 & Q2 & Q3 & Q4); rewrite ?Hl, ?blen_ins; try lia.
      exists b1f, b2f, es2f. rewrite Hd, Ht in Q1. rewrite Hd in Q4. splits; auto.
      rewrite Q4. rewrite ins_perm. simpl. symmetry. apply Permutation_middle.
    + cbn [negb].
      destruct (IH (i + 1) b1 es1 sp1 b2 es2 sp2 R1 R2 O1 O2)
        as (b1f & b2f & es2f & Heq & Q1 & Q2 & Q3 & Q4); try lia.
      exists b1f, b2f, es2f. splits; auto.
      replace (btake i es1 ++ en :: _) with
        (btake (i + 1) es1 ++ filter (fun en => negb (mine B M n2 en)) (bdrop (i + 1) es1)); auto.
      replace (btake (i + 1) es1) with (btake i es1 ++ [en]); [rewrite <- app_assoc; auto|].
      unfold en. clear - Hlt. unfold btake, nthN, blen in *.
      replace (N.to_nat (i + 1)) with (Datatypes.S (N.to_nat i)) by lia.
      assert (Hn : (N.to_nat i < length es1)%nat) by lia. revert Hn. generalize (N.to_nat i). clear.
      intros n; revert es1; induction n as [|n IH]; intros [|x l] Hn; simpl in *; try lia; auto.
      rewrite IH by lia. auto.
Qed.

(** World, writer and records of a commit in progress: everything but the data
    file is as in [w0]; the data file and the buffer are the header and the
    records. *)
Variables (hdr : bytes) (w0 : world) (Z : N -> Prop) (base : N).
Hypothesis Hhdr : blen hdr = dat_hdr_size.
Hypothesis HZ : buf_ok Z.

Definition wst0 (recs : list drec) (w : world) (bw : bwriter) : Prop :=
  (exists d, w = wset w0 FDat (Some d)) /\ bw_inv FDat w bw (hdr ++ enc_recs recs) /\ bw_small Z bw.

Definition wst (recs : list drec) (w : world) (bw : bwriter) : Prop :=
  wst0 recs w bw /\ low base recs.

Lemma wst_offset recs w bw :
  wst recs w bw -> bw_offset bw = dat_hdr_size + blen (enc_recs recs).
Proof. intros [[_ [Hi _]] _]. rewrite (bw_offset_inv _ _ _ _ Hi), blen_app, Hhdr. auto. Qed.

Lemma wst0_put recs w bw r :
  wst0 recs w bw -> Z (blen (enc_rec r)) ->
  exists w' bw', run (bw_put bw (enc_rec r)) w = (w', Ok bw') /\ wst0 (recs ++ [r]) w' bw'.
Proof.
  intros [(d & Hd) [Hi Hs]] Hz. destruct (run_bw_put _ _ _ _ (enc_rec r) Hi) as (x & bw' & Hr & Hi' & _).
  do 2 eexists; split; [exact Hr|]. split; [|split].
  - exists x. rewrite Hd, wset_wset. auto.
  - rewrite enc_recs_app. unfold enc_recs at 2; simpl. rewrite app_nil_r, app_assoc. auto.
  - exact (bw_put_small _ _ _ _ _ _ _ _ HZ Hi Hs Hz Hr).
Qed.

Lemma wst_put_data recs w bw k v :
  wst recs w bw -> Z (blen (enc_rec (DRec k v))) ->
  exists w' bw', run (bw_put bw (enc_rec (DRec k v))) w = (w', Ok bw') /\ wst (recs ++ [DRec k v]) w' bw'.
Proof.
  intros [Hw HL] Hz. destruct (wst0_put _ _ _ _ Hw Hz) as (w' & bw' & Hr & Hw').
  exists w', bw'. split; [exact Hr|]. split; [exact Hw'|]. apply low_data. exact HL.
Qed.

Lemma wst_flush recs w bw :
  wst recs w bw ->
  exists w' bw', run (bw_flush bw) w = (w', Ok bw') /\ wst recs w' bw' /\
    wget w' FDat = Some (hdr ++ enc_recs recs).
Proof.
  intros [[(d & Hd) [Hi Hs]] HL]. destruct (run_bw_flush _ _ _ _ Hi) as (bw' & Hr & Hi' & _).
  do 2 eexists; split; [exact Hr|]. split; [split; [split; [|split; [auto|]]|exact HL]|apply wget_wset_same].
  - eexists. rewrite Hd, wset_wset. reflexivity.
  - exact (bw_flush_small _ _ _ _ _ _ _ HZ Hi Hs Hr).
Qed.

Lemma placed_last recs r : In (dat_hdr_size + blen (enc_recs recs), r) (placed (recs ++ [r])).
Proof. rewrite placed_app. apply in_app_iff. right. left. reflexivity. Qed.

Lemma placed_incl recs l : forall x, In x (placed recs) -> In x (placed (recs ++ l)).
Proof. intros x Hx. rewrite placed_app. apply in_app_iff. auto. Qed.

(** New spill records appended while adding [n] entries. *)
Definition spills_only (news : list drec) : Prop :=
  Forall (fun r => rec_ok (kh_key_size kh) bs r /\ exists es sp, r = SRec es sp) news.


(** The data file has grown too large for 48-bit offsets; all but a buffer of it
    has been written. *)
Definition too_big (w : world) (recs : list drec) : Prop :=
  281474976710648 <= dat_hdr_size + blen (enc_recs recs) /\
  exists d n, wget w FDat = Some d /\ Z n /\ 281474976710648 <= blen d + n.

Lemma wst_too_big recs w bw :
  wst0 recs w bw -> 281474976710648 <= dat_hdr_size + blen (enc_recs recs) -> too_big w recs.
Proof.
  intros [_ [[_ _ (d & Hd & _ & Hc)] [Hs _]]] Hb. split; [exact Hb|].
  exists d, (blen (bw_buf bw)). split; [exact Hd|]. split; [exact Hs|].
  rewrite <- blen_app, <- Hc, blen_app, Hhdr. exact Hb.
Qed.

Lemma maybe_spill_ok recs w bw b es sp acc :
  wst recs w bw -> bk_rep bs b es sp -> bucket_inv bs (placed recs) (es, sp) acc ->
  exists news w' r, run (maybe_spill b bw) w = (w', r) /\ spills_only news /\ blen news <= 1 /\
    match r with
    | Er er => er = EAssert /\ too_big w' (recs ++ news)
    | Ok (b', bw') => exists es' sp',
        wst (recs ++ news) w' bw' /\ bk_rep bs b' es' sp' /\ blen es' < bucket_capacity bs /\
        ents_ok es' /\
        exists ces, chain bs (placed (recs ++ news)) sp' ces /\ Permutation (es' ++ ces) acc
    end.
Proof.
  intros Hw Hr [O C NE (ces & Hch & Hp)]. simpl in O, C, NE, Hch, Hp.
  unfold maybe_spill. rewrite (full_rep _ _ _ _ Hr).
  destruct (N.leb_spec (bucket_capacity bs) (blen es)) as [F|F].
  - assert (Hfull : blen es = bucket_capacity bs) by lia.
    replace (wr48 0 ++ wr16 (bk_actual b) ++ bk_compact b) with (enc_rec (SRec es sp)).
    2: { simpl. rewrite (compact_rep _ _ _ _ Hr). unfold bk_actual. rewrite (rep_size _ _ _ _ Hr). auto. }
    assert (Hz : Z (blen (enc_rec (SRec es sp)))).
    { apply (proj2 HZ _ 65600); [|apply HZ]. simpl.
      rewrite !blen_app, blen_wr48, blen_wr16, blen_enc_bucket, Hfull.
      destruct (cap_bound bs) as [E|E]; unfold bucket_size in *; lia. }
    destruct (wst0_put _ _ _ (SRec es sp) (proj1 Hw) Hz) as (w' & bw' & Hrun & Hw').
    assert (Hspl : spills_only [SRec es sp]).
    { repeat constructor; auto; try apply O.
      - apply (rep_spill_lt _ _ _ _ Hr).
      - eauto. }
    exists [SRec es sp], w'. rewrite (run_ebind_ok _ _ _ _ _ Hrun).
    rewrite (wst_offset _ _ _ Hw).
    destruct (N.ltb_spec 281474976710655 (dat_hdr_size + blen (enc_recs recs) + 8)) as [L|L].
    + eexists; split; [reflexivity|]. splits; auto; [rewrite blen_cons, blen_nil; lia|].
      eapply wst_too_big; [exact Hw'|]. rewrite enc_recs_app, blen_app. lia.
    + eexists; split; [reflexivity|]. splits; auto; [rewrite blen_cons, blen_nil; lia|].
      unfold bk_bs. rewrite (rep_len _ _ _ _ Hr).
      set (sp' := dat_hdr_size + blen (enc_recs recs) + 8) in *.
      exists [], sp'. split; [split; [exact Hw'|apply low_spill; [apply Hw|unfold sp' in L; lia]]|]. split; [|split; [|split; [apply ents_ok_nil|]]].
      * eapply set_spill_rep; [apply bk_empty_rep; auto|lia].
      * rewrite blen_nil. lia.
      * exists (es ++ ces). split; [|simpl; auto].
        apply chain_cons with (sp' := sp); auto; try (unfold sp'; lia).
        -- unfold sp'. rewrite N.add_sub. apply placed_last.
        -- pose proof Hch as Hch2. destruct Hch2; [unfold sp'; lia|].
           apply place_In in H1 as (_ & H1 & _). pose proof (enc_rec_len (SRec es0 sp'0)).
           simpl in H1. rewrite !blen_app, blen_wr48, blen_wr16 in H1.
           unfold sp'. lia.
        -- eapply chain_incl; [|exact Hch]. apply placed_incl.
  - exists [], w. eexists; split; [reflexivity|]. rewrite app_nil_r.
    split; [constructor|]. split; [rewrite blen_nil; lia|].
    exists es, sp. split; [auto|]. split; [auto|]. split; [auto|]. split; [auto|]. eauto.
Qed.

Lemma add_run {A} (k : bucket -> bwriter -> prog (res A)) recs w bw b es sp acc en :
  wst recs w bw -> bk_rep bs b es sp -> bucket_inv bs (placed recs) (es, sp) acc ->
  en_size en < 4294967296 -> en_hash en < 281474976710656 ->
  (entry_ok en \/ en_off en <= dat_hdr_size + blen (enc_recs recs)) ->
  let full := ('(b2, w2) <- maybe_spill b bw ;;
               b3 <- plift (bk_insert b2 (en_off en) (en_size en) (en_hash en)) ;;
               k b3 w2) in
  exists news w', spills_only news /\ blen news <= 1 /\
    ((run full w = (w', Er EAssert) /\ too_big w' (recs ++ news)) \/
     exists b' bw' es' sp', run full w = run (k b' bw') w' /\ wst (recs ++ news) w' bw' /\
       bk_rep bs b' es' sp' /\ bucket_inv bs (placed (recs ++ news)) (es', sp') (en :: acc) /\
       entry_ok en).
Proof.
  intros Hw Hr Hi Hsz Hh Hoff full.
  destruct (maybe_spill_ok _ _ _ _ _ _ _ Hw Hr Hi) as (news & w' & r & Hrun & Hsp & Hn & Hpost).
  exists news, w'. split; [auto|]. split; [auto|]. destruct r as [[b' bw']|er].
  - destruct Hpost as (es' & sp' & Hw' & Hr' & Hlt & Hok & ces & Hch & Hp).
    unfold full. rewrite (run_ebind_ok _ _ _ _ _ Hrun).
    destruct (N.lt_ge_cases (en_off en) 281474976710656) as [L|L].
    + assert (Hen : entry_ok en) by (repeat split; auto).
      right. destruct (bk_insert_rep bs b' es' sp' (en_off en) (en_size en) (en_hash en) Hr' (proj1 Hok) Hlt Hbs)
        as (b2 & Hins & R2).
      { destruct en; exact Hen. }
      replace (Entry (en_off en) (en_size en) (en_hash en)) with en in R2 by (destruct en; reflexivity).
      rewrite Hins. exists b2, bw', (ins es' en), sp'. split; [reflexivity|]. split; [auto|]. split; [auto|].
      split; [|auto]. constructor; simpl.
      * apply ents_ok_ins; auto.
      * rewrite blen_ins. lia.
      * intros _ E. pose proof (blen_ins es' en) as Hb. rewrite E, blen_nil in Hb. lia.
      * exists ces. split; auto. rewrite ins_perm. simpl. rewrite Hp. auto.
    + left. assert (Hne : ~ entry_ok en) by (intros (X & _); lia).
      destruct Hoff as [Hoff|Hoff]; [tauto|]. split.
      * unfold plift, bk_insert, bk_bs. rewrite (rep_len _ _ _ _ Hr'), (rep_size _ _ _ _ Hr').
        assert (Hfit : bucket_size (blen es' + 1) <= bs).
        { destruct (cap_bound bs) as [E|E]; unfold bucket_size in *; lia. }
        unfold bucket_size in Hfit. replace (bs <? 8 + (blen es' + 1) * 18) with false by lia.
        replace ((281474976710655 <? en_off en) || (281474976710655 <? en_size en)) with true by lia.
        reflexivity.
      * eapply wst_too_big; [exact (proj1 Hw')|]. rewrite enc_recs_app, blen_app. lia.
  - destruct Hpost as [-> Hbig]. left. split; auto.
    unfold full. rewrite (run_ebind_er _ _ _ _ _ Hrun). auto.
Qed.

Lemma spills_only_app a b : spills_only a -> spills_only b -> spills_only (a ++ b).
Proof. intros; apply Forall_app; auto. Qed.

(** Distributing the entries of one spill record. *)
Lemma split_spill_ok n2 B M tmp est spt : forall fuel i recs w bw b1 es1 sp1 acc1 b2 es2 sp2 acc2,
  bk_rep bs tmp est spt ->
  wst recs w bw ->
  bk_rep bs b1 es1 sp1 -> bucket_inv bs (placed recs) (es1, sp1) acc1 ->
  bk_rep bs b2 es2 sp2 -> bucket_inv bs (placed recs) (es2, sp2) acc2 ->
  i <= blen est -> fuel = N.to_nat (blen est - i) ->
  exists news w' r, run (split_spill fuel n2 B M tmp i b1 b2 bw) w = (w', r) /\
    spills_only news /\ blen news <= blen est - i /\
    match r with
    | Er er => er = EAssert /\ too_big w' (recs ++ news)
    | Ok (b1', b2', bw') => exists es1' sp1' es2' sp2',
        wst (recs ++ news) w' bw' /\
        bk_rep bs b1' es1' sp1' /\
        bucket_inv bs (placed (recs ++ news)) (es1', sp1')
          (filter (fun en => negb (mine B M n2 en)) (bdrop i est) ++ acc1) /\
        bk_rep bs b2' es2' sp2' /\
        bucket_inv bs (placed (recs ++ news)) (es2', sp2')
          (filter (mine B M n2) (bdrop i est) ++ acc2)
    end.
Proof.
  induction fuel as [|fuel IH]; intros i recs w bw b1 es1 sp1 acc1 b2 es2 sp2 acc2 Rt Hw R1 I1 R2 I2 Hi Hf.
  - exists [], w. eexists; split; [reflexivity|]. rewrite app_nil_r.
    split; [constructor|]. split; [rewrite blen_nil; lia|].
    exists es1, sp1, es2, sp2. rewrite bdrop_all by lia. simpl. auto.
  - assert (Hlt : i < blen est) by lia.
    cbn [split_spill]; cbv zeta. rewrite (bk_at_rep _ _ _ _ _ Rt Hlt).
    rewrite (bdrop_nth _ _ en0 Hlt). set (en := nthN est i en0).
    assert (Hen : entry_ok en).
    { pose proof (rep_ok _ _ _ _ Rt) as O1. rewrite Forall_forall in O1. apply O1, nthN_In; auto. }
    cbn [filter]. change (bucket_index (en_hash en) B M =? n2) with (mine B M n2 en).
    destruct (mine B M n2 en) eqn:E; cbn [negb].
    + destruct (add_run (fun b3 w2 => split_spill fuel n2 B M tmp (i + 1) b1 b3 w2)
                  _ _ _ _ _ _ _ en Hw R2 I2) as (n1 & w1 & S1 & L1 & Hcase);
        try apply Hen; auto.
      destruct Hcase as [[Hrun Hbig]|(b2' & bw' & es2' & sp2' & Hrun & Hw' & R2' & I2' & _)].
      * exists n1, w1. eexists; split; [exact Hrun|]. split; [auto|]. split; [lia|auto].
      * destruct (IH (i + 1) _ _ _ b1 es1 sp1 acc1 b2' es2' sp2' (en :: acc2) Rt Hw' R1
          (bucket_inv_incl _ _ _ _ _ (placed_incl _ _) I1) R2' I2') as (n2' & w2 & r & Hr & S2 & L2 & Hpost);
          try lia.
        exists (n1 ++ n2'), w2, r. split; [rewrite <- Hr; exact Hrun|].
        split; [apply spills_only_app; auto|]. split; [rewrite blen_app; lia|].
        destruct r as [[[b1f b2f] bwf]|er].
        -- destruct Hpost as (es1f & sp1f & es2f & sp2f & Q1 & Q2 & Q3 & Q4 & Q5).
           exists es1f, sp1f, es2f, sp2f. rewrite app_assoc. splits; auto.
           eapply bucket_inv_perm; [|exact Q5]. simpl. symmetry. apply Permutation_middle.
        -- rewrite app_assoc. auto.
    + destruct (add_run (fun b3 w2 => split_spill fuel n2 B M tmp (i + 1) b3 b2 w2)
                  _ _ _ _ _ _ _ en Hw R1 I1) as (n1 & w1 & S1 & L1 & Hcase);
        try apply Hen; auto.
      destruct Hcase as [[Hrun Hbig]|(b1' & bw' & es1' & sp1' & Hrun & Hw' & R1' & I1' & _)].
      * exists n1, w1. eexists; split; [exact Hrun|]. split; [auto|]. split; [lia|auto].
      * destruct (IH (i + 1) _ _ _ b1' es1' sp1' (en :: acc1) b2 es2 sp2 acc2 Rt Hw' R1' I1' R2
          (bucket_inv_incl _ _ _ _ _ (placed_incl _ _) I2)) as (n2' & w2 & r & Hr & S2 & L2 & Hpost);
          try lia.
        exists (n1 ++ n2'), w2, r. split; [rewrite <- Hr; exact Hrun|].
        split; [apply spills_only_app; auto|]. split; [rewrite blen_app; lia|].
        destruct r as [[[b1f b2f] bwf]|er].
        -- destruct Hpost as (es1f & sp1f & es2f & sp2f & Q1 & Q2 & Q3 & Q4 & Q5).
           exists es1f, sp1f, es2f, sp2f. rewrite app_assoc. split; [auto|]. split; [auto|].
           split; [|auto].
           eapply bucket_inv_perm; [|exact Q3]. simpl. symmetry. apply Permutation_middle.
        -- rewrite app_assoc. auto.
Qed.

(** Reading a spill record of the virtual file after the flush test. *)
Lemma read_spill_wst recs w bw sp es sp' :
  wst recs w bw -> In (sp - 8, SRec es sp') (placed recs) -> 8 <= sp ->
  blen es = bucket_capacity bs -> ents_ok es -> sp' < 281474976710656 ->
  exists w' bw',
    run (if bw_offset bw - bw_size bw <? sp + bucket_size (kh_capacity kh)
         then bw_flush bw else pret bw) w = (w', Ok bw') /\ wst recs w' bw' /\
    exists b, run (bk_read (fresh e (kh_block_size kh)) FDat sp) w' = (w', Ok b) /\ bk_rep bs b es sp'.
Proof.
  intros Hw Hin H8 Hl Hok Hsp.
  destruct (N.ltb_spec (bw_offset bw - bw_size bw) (sp + bucket_size (kh_capacity kh))) as [L|L].
  - destruct (wst_flush _ _ _ Hw) as (w' & bw' & Hr & Hw' & Hd).
    exists w', bw'. split; [auto|]. split; [auto|].
    eapply read_spill; eauto. eapply holds_placed; auto.
  - exists w, bw. split; [reflexivity|]. split; [auto|].
    destruct Hw as [[_ [[_ _ (d & Hd & Ho & Hc)] _]] _].
    assert (Hb : bw_offset bw - bw_size bw = blen d).
    { unfold bw_offset, bw_size. rewrite Ho. lia. }
    rewrite Hb, Hkc in L.
    apply (read_spill bs e d [(sp - 8, SRec es sp')]); auto; [|left; auto].
    intros o r [E|[]]. injection E; intros; subst o r.
    pose proof (holds_placed hdr recs Hhdr _ _ Hin) as [G1 G2].
    assert (G3 : sp - 8 + blen (enc_rec (SRec es sp')) <= blen d).
    { simpl. rewrite !blen_app, blen_wr48, blen_wr16, blen_enc_bucket, Hl. lia. }
    split; [auto|]. rewrite Hc in G2. rewrite bsub_app_l in G2; auto.
Qed.


Lemma split_loop n2 B M P spill ces : chain bs P spill ces -> spill <> 0 ->
  forall recs w bw b1 es1 sp1 acc1 b2 es2 sp2 acc2,
  (forall x, In x P -> In x (placed recs)) ->
  wst recs w bw ->
  bk_rep bs b1 es1 sp1 -> bucket_inv bs (placed recs) (es1, sp1) acc1 ->
  bk_rep bs b2 es2 sp2 -> bucket_inv bs (placed recs) (es2, sp2) acc2 ->
  exists n news w' r, loops (split_step e kh n2 B M) n (spill, b1, b2, bw) w w' r /\
    N.of_nat n <= spill /\ spills_only news /\ blen news <= blen ces /\
    match r with
    | Er er => er = EAssert /\ too_big w' (recs ++ news)
    | Ok (b1', b2', bw') => exists es1' sp1' es2' sp2',
        wst (recs ++ news) w' bw' /\
        bk_rep bs b1' es1' sp1' /\
        bucket_inv bs (placed (recs ++ news)) (es1', sp1')
          (filter (fun en => negb (mine B M n2 en)) ces ++ acc1) /\
        bk_rep bs b2' es2' sp2' /\
        bucket_inv bs (placed (recs ++ news)) (es2', sp2')
          (filter (mine B M n2) ces ++ acc2)
    end.
Proof.
  intros Hch.
  induction Hch as [|sp es sp' ces H8 Hsp Hin Hlen Hok Hlt Hch IH];
    intros Hne recs w bw b1 es1 sp1 acc1 b2 es2 sp2 acc2 HP Hw R1 I1 R2 I2; [congruence|].
  destruct (read_spill_wst _ _ _ _ _ _ Hw (HP _ Hin) H8 Hlen Hok ltac:(lia)) as (w1 & bw1 & Hr1 & Hw1 & tmp & Hr2 & Rt).
  destruct (split_spill_ok n2 B M tmp es sp' (N.to_nat (blen es)) 0 recs w1 bw1 b1 es1 sp1 acc1 b2 es2 sp2 acc2)
    as (news & w2 & r & Hr3 & S1 & L1 & Hpost); auto; try lia.
  rewrite bdrop_0 in Hpost. rewrite N.sub_0_r in L1.
  destruct r as [[[b1' b2'] bw']|er].
  - destruct Hpost as (es1' & sp1' & es2' & sp2' & Hw2 & R1' & I1' & R2' & I2').
    assert (Hstep : run (split_step e kh n2 B M (sp, b1, b2, bw)) w =
      (w2, if sp' =? 0 then inr (Ok (b1', b2', bw')) else inl (sp', b1', b2', bw'))).
    { unfold split_step.
      erewrite run_bind_eq.
      2: { erewrite run_ebind_ok by exact Hr1. erewrite run_ebind_ok by exact Hr2.
           rewrite (rep_size _ _ _ _ Rt).
           erewrite run_ebind_ok by exact Hr3.
           rewrite (rep_spill _ _ _ _ Rt). reflexivity. }
      cbv beta iota. destruct (sp' =? 0); reflexivity. }
    destruct (N.eqb_spec sp' 0) as [E|E].
    + subst sp'. inversion Hch; subst; [|lia]. rewrite app_nil_r.
      exists 1%nat, news, w2. eexists; split; [constructor; exact Hstep|].
      split; [lia|]. split; [auto|]. split; [lia|].
      exists es1', sp1', es2', sp2'. auto 10.
    + destruct (IH E (recs ++ news) w2 bw' b1' es1' sp1'
        (filter (fun en => negb (mine B M n2 en)) es ++ acc1)
        b2' es2' sp2' (filter (mine B M n2) es ++ acc2))
        as (n & news2 & w3 & r & Hl & Hn & S2 & L2 & Hp); auto.
      { intros x Hx. apply placed_incl. auto. }
      exists (Datatypes.S n), (news ++ news2), w3, r. splits; try lia.
      * econstructor; eauto.
      * apply spills_only_app; auto.
      * rewrite !blen_app. lia.
      * destruct r as [[[b1f b2f] bwf]|er]; rewrite app_assoc; auto.
        destruct Hp as (es1f & sp1f & es2f & sp2f & Q1 & Q2 & Q3 & Q4 & Q5).
        exists es1f, sp1f, es2f, sp2f. splits; auto.
        -- eapply bucket_inv_perm; [|exact Q3]. rewrite filter_app.
           rewrite !app_assoc. apply Permutation_app_tail. apply Permutation_app_comm.
        -- eapply bucket_inv_perm; [|exact Q5]. rewrite filter_app.
           rewrite !app_assoc. apply Permutation_app_tail. apply Permutation_app_comm.
  - destruct Hpost as [-> Hbig]. exists 1%nat, news, w2, (Er EAssert). splits; auto; try lia.
    + constructor. unfold split_step. erewrite run_bind_eq.
      2: { erewrite run_ebind_ok by exact Hr1. erewrite run_ebind_ok by exact Hr2.
           rewrite (rep_size _ _ _ _ Rt). erewrite run_ebind_er by exact Hr3. reflexivity. }
      reflexivity.
    + rewrite blen_app. lia.
Qed.

(** split: all entries of the bucket and its chain go to b1 or b2. *)
Lemma split_ok n2 B M recs w bw b1 es1 sp1 all :
  wst recs w bw ->
  bk_rep bs b1 es1 sp1 -> bucket_inv bs (placed recs) (es1, sp1) all ->
  exists news w' r, run (Store.split e kh b1 (bk_empty bs) n2 B M bw) w = (w', r) /\
    spills_only news /\ blen news <= blen all /\
    match r with
    | Er er => er = EAssert /\ too_big w' (recs ++ news)
    | Ok (b1', b2', bw') => exists es1' sp1' es2' sp2',
        wst (recs ++ news) w' bw' /\
        bk_rep bs b1' es1' sp1' /\
        bucket_inv bs (placed (recs ++ news)) (es1', sp1') (filter (fun en => negb (mine B M n2 en)) all) /\
        bk_rep bs b2' es2' sp2' /\
        bucket_inv bs (placed (recs ++ news)) (es2', sp2') (filter (mine B M n2) all)
    end.
Proof.
  intros Hw R1 I1. pose proof I1 as [O C NE (ces & Hch & Hp)]. simpl in O, C, NE, Hch, Hp.
  unfold Store.split. rewrite (rep_size _ _ _ _ R1).
  destruct (N.eqb_spec (blen es1) 0) as [E|E].
  - apply blen_0 in E. subst es1.
    assert (sp1 = 0) by (destruct (N.eq_dec sp1 0); auto; exfalso; apply NE; auto). subst sp1.
    inversion Hch; subst; [|lia]. simpl in Hp. apply Permutation_nil in Hp. subst all.
    exists [], w. eexists; split; [reflexivity|]. rewrite app_nil_r. splits; [constructor|rewrite blen_nil; lia|].
    exists [], 0, [], 0. simpl. splits; auto. apply bk_empty_rep; auto.
  - destruct (split_own_ok n2 B M (N.to_nat (blen es1)) 0 b1 es1 sp1 (bk_empty bs) [] 0)
      as (b1' & b2' & es2' & Hown & Q1 & Q2 & Q3 & Q4); auto using ents_ok_nil, bk_empty_rep; try lia.
    { rewrite blen_nil. lia. }
    rewrite bdrop_0, btake_0 in Q1. simpl app in Q1. rewrite bdrop_0, app_nil_r in Q4.
    erewrite run_ebind_ok by (unfold plift; rewrite Hown; reflexivity).
    cbv beta iota zeta. rewrite (rep_spill _ _ _ _ Q1).
    pose proof (blen_perm _ _ Hp) as Hlall. rewrite blen_app in Hlall.
    assert (J2 : bucket_inv bs (placed recs) (es2', 0) (filter (mine B M n2) es1)).
    { constructor; simpl; auto.
      - apply (rep_cap _ _ _ _ Q2).
      - exists []. split; [constructor|]. rewrite app_nil_r. auto. }
    assert (J1 : bucket_inv bs (placed recs) (filter (fun en => negb (mine B M n2 en)) es1, 0)
               (filter (fun en => negb (mine B M n2 en)) es1)).
    { constructor; simpl; auto.
      - apply ents_ok_filter; auto.
      - pose proof (filter_blen (fun en => negb (mine B M n2 en)) es1). lia.
      - exists []. split; [constructor|]. rewrite app_nil_r. auto. }
    destruct (N.eqb_spec sp1 0) as [E2|E2].
    + subst sp1. inversion Hch; subst; [|lia]. rewrite app_nil_r in Hp.
      exists [], w. eexists; split; [reflexivity|]. rewrite app_nil_r.
      splits; [constructor|rewrite blen_nil; lia|].
      exists (filter (fun en => negb (mine B M n2 en)) es1), 0, es2', 0. splits; auto.
      * eapply bucket_inv_perm; [|exact J1]. apply filter_perm; auto.
      * eapply bucket_inv_perm; [|exact J2]. apply filter_perm; auto.
    + assert (Q1' : bk_rep bs (bk_set_spill b1' 0) (filter (fun en => negb (mine B M n2 en)) es1) 0)
        by (eapply set_spill_rep; eauto; lia).
      destruct (split_loop n2 B M (placed recs) sp1 ces Hch E2 recs w bw _ _ _ _ _ _ _ _ (fun x h => h) Hw Q1' J1 Q2 J2)
        as (n & news & w' & r & Hl & Hn & S1 & L1 & Hpost).
      exists news, w', r. splits; auto; try lia.
      * eapply loop_run; eauto. apply chain_lt in Hch. lia.
      * destruct r as [[[b1f b2f] bwf]|er]; auto.
        destruct Hpost as (es1f & sp1f & es2f & sp2f & P1 & P2 & P3 & P4 & P5).
        exists es1f, sp1f, es2f, sp2f. splits; auto.
        -- eapply bucket_inv_perm; [|exact P3]. rewrite <- filter_app. apply filter_perm.
           rewrite <- Hp. apply Permutation_app_comm.
        -- eapply bucket_inv_perm; [|exact P5]. rewrite <- filter_app. apply filter_perm.
           rewrite <- Hp. apply Permutation_app_comm.
Qed.
End Split.
