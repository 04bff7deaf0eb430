(** visit() while a store is flushing. *)
From Verif Require Import Model.Bytes Model.Err Model.Field Model.Format Model.IO Model.BulkIO
  Model.Bucket Model.Pool Model.Recover Model.Create Model.Store Model.History Model.Visit Model.Crash Model.Events Model.Beside
  Spec SpecFormat SpecHeader SpecVisit Proofs.BytesFacts Proofs.IOFacts Proofs.SafeFacts Proofs.CrashFacts Proofs.StoreInv
  Proofs.LifeFacts Proofs.DiskFacts Proofs.RefuseFacts Proofs.VisitFacts Proofs.WrittenFacts Proofs.PosixFacts
  Proofs.WholeFacts.
Opaque loop.

(** ** The side that writes *)
Section Writer.
Variables (torn : bool) (ks : N) (base D : bytes).

(** Appending only, and complete records unless writes can be seen in part. *)
Definition grow_op (o : io) : Prop :=
  match o with
  | IoWrite FDat ap _ d => ap = true /\ (torn = false -> records ks d)
  | IoTrunc FDat _ | IoCreate FDat | IoErase FDat => False
  | _ => True
  end.

Lemma whole_grow o : whole_op ks o -> grow_op o.
Proof using. destruct o as [[]|[]|[]|[]|[] off len|[] ap off d|[]|[] n]; cbn; tauto. Qed.

(** What is left to do, [q], takes the data file from its present contents to [D]. *)
Definition writing {B} (q : prog B) (w : world) : Prop :=
  sops grow_op anyres q /\
  exists d, w_dat w = Some d /\ w_dat (fst (run q w)) = Some D /\
    (torn = false -> exists x, records ks x /\ d = base ++ x).

Lemma grow_exec o w d : grow_op o -> w_dat w = Some d ->
  exists x, w_dat (fst (exec o w)) = Some (d ++ x) /\ (torn = false -> records ks x).
Proof using.
  intros Ho Hd.
  assert (Z : exists x, Some d = Some (d ++ x) /\ (torn = false -> records ks x)).
  { exists []. rewrite app_nil_r. split; [reflexivity|]. intros _. apply records_nil. }
  destruct o as [f|f|f|f|f off len|f ap off y|f|f n]; cbn [exec].
  - destruct (wget w f); cbn [fst]; rewrite Hd; exact Z.
  - destruct f; [contradiction Ho|destruct (wget w FKey)|destruct (wget w FLog)]; cbn [fst]; unfold wset; cbn [w_dat]; rewrite Hd; exact Z.
  - destruct f; [contradiction Ho|destruct (wget w FKey)|destruct (wget w FLog)]; cbn [fst]; unfold wset; cbn [w_dat]; rewrite Hd; exact Z.
  - destruct (wget w f); cbn [fst]; rewrite Hd; exact Z.
  - destruct (wget w f); [destruct (_ || _)|]; cbn [fst]; rewrite Hd; exact Z.
  - destruct f.
    + destruct Ho as [-> Hr]. change (wget w FDat) with (w_dat w). rewrite Hd. cbn [andb].
      destruct (N.eqb_spec off (blen d)) as [->|Hn]; cbn [negb fst]; unfold wset; cbn [w_dat]; [|rewrite Hd; exact Z].
      exists y. rewrite bwrite_end by reflexivity. auto.
    + destruct (wget w FKey); [destruct (_ && _)|]; cbn [fst]; unfold wset; cbn [w_dat]; rewrite Hd; exact Z.
    + destruct (wget w FLog); [destruct (_ && _)|]; cbn [fst]; unfold wset; cbn [w_dat]; rewrite Hd; exact Z.
  - destruct (wget w f); cbn [fst]; rewrite Hd; exact Z.
  - destruct f; [contradiction Ho|destruct (wget w FKey)|destruct (wget w FLog)]; cbn [fst]; unfold wset; cbn [w_dat]; rewrite Hd; exact Z.
Qed.

Lemma writing_other {B} o (k : rsp -> prog B) w d : writing (Do o k) w -> w_dat w = Some d ->
  writing (k (snd (exec o w))) (fst (exec o w)) /\ exists x, w_dat (fst (exec o w)) = Some (d ++ x).
Proof using.
  intros (Hs & d' & Hd' & HD & Hr) Hd. assert (d' = d) by congruence. subst d'. clear Hd'.
  inversion Hs as [|o' k' Ho Hk]; subst. rewrite run_do in HD.
  destruct (grow_exec o w d Ho Hd) as (x & Hx & Hrx). split; [|eauto]. split; [apply Hk, sane_exec|].
  exists (d ++ x). split; [exact Hx|]. split; [exact HD|]. intros Ht.
  destruct (Hr Ht) as (y & Hy & ->). exists (y ++ x). split; [apply records_app; auto|]. rewrite app_assoc. reflexivity.
Qed.

(** A write done in two parts. *)
Lemma exec_parts f ap off d1 d2 w : 0 < blen d1 -> snd (exec (IoWrite f ap off d1) w) = ROk 0 [] ->
  exec (IoWrite f ap off (d1 ++ d2)) w = exec (IoWrite f ap (off + blen d1) d2) (fst (exec (IoWrite f ap off d1) w)).
Proof using.
  intros H1. cbn [exec]. destruct (wget w f) as [c|] eqn:E; [|discriminate].
  destruct (ap && negb (off =? blen c)) eqn:A; [discriminate|]. intros _. cbn [fst].
  rewrite wget_wset_same.
  assert (A' : ap && negb (off + blen d1 =? blen (bwrite off d1 c)) = false).
  { destruct ap; [|reflexivity]. cbn [andb] in *. apply Bool.negb_false_iff in A. apply N.eqb_eq in A.
    apply Bool.negb_false_iff, N.eqb_eq. rewrite blen_bwrite_gen. lia. }
  rewrite A'. rewrite (bwrite_split off d1 d2 c H1). destruct f; reflexivity.
Qed.

Lemma writing_part {B} f ap off d1 d2 (k : rsp -> prog B) w d : torn = true -> 0 < blen d1 ->
  snd (exec (IoWrite f ap off d1) w) = ROk 0 [] ->
  writing (Do (IoWrite f ap off (d1 ++ d2)) k) w -> w_dat w = Some d ->
  writing (Do (IoWrite f ap (off + blen d1) d2) k) (fst (exec (IoWrite f ap off d1) w)) /\
  exists x, w_dat (fst (exec (IoWrite f ap off d1) w)) = Some (d ++ x).
Proof using.
  intros Ht H1 Ha (Hs & d' & Hd' & HD & Hr) Hd. assert (d' = d) by congruence. subst d'. clear Hd'.
  inversion Hs as [|o' k' Ho Hk]; subst o' k'.
  assert (Ho1 : forall off d, grow_op (IoWrite f ap off d)).
  { intros o x. destruct f; cbn in *; auto. split; [apply Ho|]. rewrite Ht. discriminate. }
  destruct (grow_exec (IoWrite f ap off d1) w d (Ho1 _ _) Hd) as (x & Hx & _). split; [|eauto]. split.
  - constructor; [apply Ho1|]. intros r Hr'. apply Hk. exact I.
  - exists (d ++ x). split; [exact Hx|]. split; [|rewrite Ht; discriminate].
    rewrite run_do in HD |- *. rewrite (exec_parts f ap off d1 d2 w H1 Ha) in HD. exact HD.
Qed.

Lemma sops_run_grows {B} (q : prog B) : forall w d, sops grow_op anyres q -> w_dat w = Some d ->
  exists x, w_dat (fst (run q w)) = Some (d ++ x).
Proof using.
  induction q as [b|o k IH]; intros w d Hs Hd.
  - exists []. rewrite app_nil_r. exact Hd.
  - inversion Hs as [|o' k' Ho Hk]; subst. rewrite run_do.
    destruct (grow_exec o w d Ho Hd) as (x & Hx & _).
    destruct (IH _ _ _ (Hk _ (sane_exec o w)) Hx) as (y & Hy). exists (x ++ y). rewrite Hy, app_assoc. reflexivity.
Qed.

(** ** The side that reads *)
Definition snap (d : bytes) : world := World (Some d) None None.

(** The next operation of the reader happens in some later state of the files. *)
Lemma next_mine {A B} o (k : rsp -> prog A) (q : prog B) w a :
  beside torn (Do o k) q w a -> forall d, writing q w -> w_dat w = Some d ->
  exists (q' : prog B) w' x, writing q' w' /\ w_dat w' = Some (d ++ x) /\
    beside torn (k (snd (exec o w'))) q' (fst (exec o w')) a.
Proof using.
  intros H. remember (Do o k) as p eqn:Ep. induction H as [a q w|o' k' q w a H _|p o' k' w a H IH|p f ap off d1 d2 k' w a Ht H1 Ha H IH];
    intros d Hq Hd.
  - discriminate Ep.
  - injection Ep as -> ->. exists q, w, []. rewrite app_nil_r. auto.
  - destruct (writing_other _ _ _ _ Hq Hd) as (Hq' & x & Hx).
    destruct (IH Ep _ Hq' Hx) as (q1 & w1 & y & X1 & X2 & X3). exists q1, w1, (x ++ y). rewrite app_assoc. auto.
  - destruct (writing_part _ _ _ _ _ _ _ _ Ht H1 Ha Hq Hd) as (Hq' & x & Hx).
    destruct (IH Ep _ Hq' Hx) as (q1 & w1 & y & X1 & X2 & X3). exists q1, w1, (x ++ y). rewrite app_assoc. auto.
Qed.

(** Programs that only read the data file below [n]. *)
Definition below (n : N) (o : io) : Prop :=
  exists off len, o = IoRead FDat off len /\ (len = 0 \/ off + len <= n).

Lemma below_exec n o w d x : below n o -> w_dat w = Some (d ++ x) -> blen d = n ->
  exec o w = (w, snd (exec o (snap d))).
Proof using.
  intros (off & len & -> & Hl) Hw Hn. cbn [exec]. change (wget w FDat) with (w_dat w). rewrite Hw.
  change (wget (snap d) FDat) with (Some d). cbv iota.
  assert (E : (len =? 0) || (off + len <=? blen (d ++ x)) = true).
  { apply Bool.orb_true_iff. rewrite blen_app. destruct Hl; [left; lia|right; lia]. }
  assert (E' : (len =? 0) || (off + len <=? blen d) = true).
  { apply Bool.orb_true_iff. destruct Hl; [left; lia|right; lia]. }
  rewrite E, E'. cbn [snd]. f_equal. f_equal. destruct Hl as [->|Hl].
  - unfold bsub. rewrite !btake_0. reflexivity.
  - apply bsub_app_l. lia.
Qed.

Lemma reader_alone {A B} (p : prog A) : forall (q : prog B) w a d x, beside torn p q w a ->
  allops (below (blen d)) anyres p -> writing q w -> w_dat w = Some (d ++ x) -> a = snd (run p (snap d)).
Proof using.
  induction p as [b|o k IH]; intros q w a d x Hb Hp Hq Hw.
  - remember (Ret b) as p eqn:Ep. clear Hp Hq Hw. induction Hb; try discriminate Ep; auto; injection Ep as ->; reflexivity.
  - inversion Hp as [|o' k' Ho Hk]; subst.
    destruct (next_mine _ _ _ _ _ Hb _ Hq Hw) as (q' & w' & y & H1 & H2 & H3).
    rewrite <- app_assoc in H2. rewrite (below_exec _ _ _ _ _ Ho H2 eq_refl) in H3. cbn [fst snd] in H3.
    rewrite run_do. rewrite (IH _ _ _ _ _ _ H3 (Hk _) H1 H2).
    assert (E : fst (exec o (snap d)) = snap d).
    { assert (X : w_dat (snap d) = Some (d ++ [])) by (rewrite app_nil_r; reflexivity).
      rewrite (below_exec _ _ _ _ _ Ho X eq_refl). reflexivity. }
    rewrite E. reflexivity.
Qed.

Lemma below_prepare n r m : br_file r = FDat -> br_last r = n ->
  allops (below n) (okres (fun x => br_file (snd x) = FDat /\ br_last (snd x) = n)) (br_prepare r m).
Proof using.
  intros Hf Hl. unfold br_prepare. cbv zeta.
  apply (ao_ebind _ (fun r => br_file r = FDat /\ br_last r = n)).
  - destruct (_ <? _); [|apply ao_pret; auto]. destruct (_ <? _); [apply ao_pfail|].
    apply (ao_ebind _ anyres).
    + apply ao_data. rewrite Hf. do 2 eexists. split; [reflexivity|]. rewrite Hl. lia.
    + intros d _. apply ao_pret. auto.
  - intros r' Hr. apply ao_pret. cbn [snd br_file br_last]. exact Hr.
Qed.

Definition at_n (n : N) (st : list vcall * breader) : Prop := br_file (snd st) = FDat /\ br_last (snd st) = n.

Lemma below_step cb k n st : at_n n st ->
  allops (below n) (fun r => match r with inl st => at_n n st | inr x => okres anyres x end) (visit_step cb k n st).
Proof using.
  destruct st as [t r]. intros [Hf Hl]. cbn [snd] in Hf, Hl. unfold visit_step. cbv zeta.
  destruct (br_eof r); [constructor; exact I|].
  eapply ao_bind; [apply (below_prepare n r 6 Hf Hl)|]. intros [[is r1]|er] Ha; [|constructor; exact I].
  cbn [okres snd] in Ha. destruct Ha as [Hf1 Hl1]. destruct (_ <? _).
  - eapply ao_bind; [apply (below_prepare n r1 _ Hf1 Hl1)|]. intros [[is2 r2]|er] Hb; [|constructor; exact I].
    cbn [okres snd] in Hb. destruct (cb _ _ _); constructor; [exact I|exact Hb].
  - eapply ao_bind; [apply (below_prepare n r1 _ Hf1 Hl1)|]. intros [[is2 r2]|er] Hb; [|constructor; exact I].
    cbn [okres snd] in Hb. destruct Hb as [Hf2 Hl2].
    eapply ao_bind; [apply (below_prepare n r2 _ Hf2 Hl2)|]. intros [[is3 r3]|er] Hc; [|constructor; exact I].
    constructor. exact Hc.
Qed.

Lemma below_loop cb k n t r : br_file r = FDat -> br_last r = n ->
  allops (below n) anyres (loop (visit_step cb k n) (t, r)).
Proof using.
  intros Hf Hl. apply (ao_weaken (below n) (below n) (okres anyres)); [|auto|intros; exact I].
  apply (ao_loop _ (at_n n)); [apply below_step|]. split; [exact Hf|exact Hl].
Qed.
End Writer.

(** ** visit() sees the data file as it was when its size was taken *)
Lemma visit_snapshot torn ks base D {B} cb (q : prog B) w a d :
  beside torn (visit cb) q w a -> writing torn ks base D q w -> w_dat w = Some d -> dat_hdr_size <= blen d ->
  exists x w' (q' : prog B), writing torn ks base D q' w' /\ w_dat w' = Some (d ++ x) /\
    a = snd (run (visit cb) (snap (d ++ x))).
Proof.
  intros Hb Hq Hd Hl.
  assert (Hrd : forall y, snd (exec (IoRead FDat 0 dat_hdr_size) (snap (d ++ y))) = ROk 0 (bsub 0 dat_hdr_size d)).
  { intros y. cbn [exec]. change (wget (snap (d ++ y)) FDat) with (Some (d ++ y)). cbv iota.
    replace (0 + dat_hdr_size <=? blen (d ++ y)) with true by (symmetry; apply N.leb_le; rewrite blen_app; lia).
    rewrite Bool.orb_true_r. cbn [snd]. f_equal. apply bsub_app_l. lia. }
  (* open *)
  unfold visit in Hb. cbn [p_open do_unit ebind bind] in Hb.
  destruct (next_mine torn ks base D _ _ _ _ _ Hb d Hq Hd) as (q1 & w1 & x1 & Q1 & W1 & B1). clear Hb.
  assert (E1 : exec (IoOpen FDat) w1 = (w1, ROk 0 [])).
  { cbn [exec]. change (wget w1 FDat) with (w_dat w1). rewrite W1. reflexivity. }
  rewrite E1 in B1. cbn [fst snd] in B1. cbn [ebind bind read_dat_header p_read do_data] in B1.
  unfold read_dat_header in B1. cbn [ebind bind p_read do_data] in B1.
  destruct (next_mine torn ks base D _ _ _ _ _ B1 _ Q1 W1) as (q2 & w2 & x2 & Q2 & W2 & B2). clear B1.
  rewrite <- app_assoc in W2.
  assert (E2 : exec (IoRead FDat 0 dat_hdr_size) w2 = (w2, ROk 0 (bsub 0 dat_hdr_size d))).
  { rewrite (below_exec (blen (d ++ x1 ++ x2)) _ w2 (d ++ x1 ++ x2) []); [rewrite Hrd; reflexivity| | |].
    - exists 0, dat_hdr_size. split; [reflexivity|]. right. rewrite blen_app. lia.
    - rewrite app_nil_r. exact W2.
    - reflexivity. }
  rewrite E2 in B2. cbn [fst snd] in B2. unfold pret at 1 in B2. cbn [ebind bind plift] in B2.
  assert (Run : forall y, run (visit cb) (snap (d ++ y)) =
    run (bind (plift (verify_dat (dec_dat_header (bsub 0 dat_hdr_size d))) ;;;
               fileSize <- p_size FDat ;; pret (dh_key_size (dec_dat_header (bsub 0 dat_hdr_size d)), fileSize))
      (fun a => match a with
       | Er er => pret ([], Er er)
       | Ok (ks, fileSize) => loop (visit_step cb ks fileSize)
           ([VProgress 0 fileSize], br_make FDat dat_hdr_size fileSize visit_read_size)
       end)) (snap (d ++ y))).
  { intros y. unfold visit. cbn [p_open do_unit ebind bind]. rewrite run_do.
    change (exec (IoOpen FDat) (snap (d ++ y))) with (snap (d ++ y), ROk 0 []). cbn [fst snd].
    unfold read_dat_header. cbn [ebind bind p_read do_data]. rewrite run_do.
    assert (Ef : fst (exec (IoRead FDat 0 dat_hdr_size) (snap (d ++ y))) = snap (d ++ y)).
    { cbn [exec]. change (wget (snap (d ++ y)) FDat) with (Some (d ++ y)). cbv iota. destruct (_ || _); reflexivity. }
    rewrite Ef, Hrd. reflexivity. }
  destruct (verify_dat (dec_dat_header (bsub 0 dat_hdr_size d))) as [u|er] eqn:Ev.
  - cbn [p_size do_num ebind bind] in B2.
    destruct (next_mine torn ks base D _ _ _ _ _ B2 _ Q2 W2) as (q3 & w3 & x3 & Q3 & W3 & B3). clear B2.
    rewrite <- app_assoc in W3. set (y := (x1 ++ x2) ++ x3) in *.
    assert (W3' : w_dat w3 = Some (d ++ y)) by (unfold y; rewrite W3; f_equal; rewrite <- !app_assoc; reflexivity).
    assert (E3 : exec (IoSize FDat) w3 = (w3, ROk (blen (d ++ y)) [])).
    { cbn [exec]. change (wget w3 FDat) with (w_dat w3). rewrite W3'. reflexivity. }
    rewrite E3 in B3. cbn [fst snd] in B3. unfold pret at 1 in B3. cbn [bind] in B3.
    exists y, w3, q3. split; [exact Q3|]. split; [exact W3'|]. rewrite Run.
    cbn [plift ebind bind p_size do_num]. rewrite run_do.
    change (exec (IoSize FDat) (snap (d ++ y))) with (snap (d ++ y), ROk (blen (d ++ y)) []). cbn [fst snd].
    unfold pret. cbn [bind].
    eapply (reader_alone torn ks base D _ q3 w3 a (d ++ y) []); [exact B3| |exact Q3|rewrite app_nil_r; exact W3'].
    apply below_loop; reflexivity.
  - cbn [ebind bind] in B2. exists (x1 ++ x2), w2, q2. split; [exact Q2|]. split; [exact W2|]. rewrite Run.
    cbn [plift ebind bind pret run snd].
    remember (pret (@nil vcall, @Er unit er)) as p eqn:Ep. clear - B2 Ep. induction B2; try discriminate Ep; auto.
    injection Ep as ->. reflexivity.
Qed.

(** ** Prefixes of a data file *)
Lemma images_cons r l : images (r :: l) = image r ++ images l.
Proof. reflexivity. Qed.
Lemma images_app a b : images (a ++ b) = images a ++ images b.
Proof. unfold images. apply flat_map_app. Qed.
Lemma values_app a b : values (a ++ b) = values a ++ values b.
Proof. induction a as [|[k v|c] a IH]; simpl; congruence. Qed.

Lemma images_prefix ks l : forall l' u, Forall (record_ok ks) l -> Forall (record_ok ks) l' ->
  images l' = images l ++ u -> exists l2, l' = l ++ l2 /\ u = images l2.
Proof.
  induction l as [|r l IH]; intros l' u Hl Hl' E.
  - exists l'. split; [reflexivity|]. symmetry. exact E.
  - destruct l' as [|r' l'].
    + exfalso. apply (f_equal (@blen N)) in E. rewrite images_cons, !blen_app in E. pose proof (image_pos r).
      change (blen (images [])) with 0 in E. lia.
    + rewrite !images_cons, <- app_assoc in E. inversion Hl; inversion Hl'; subst.
      apply (image_app_inj ks) in E as [-> E]; auto. destruct (IH l' u) as (l2 & -> & ->); auto.
      exists l2. auto.
Qed.

Lemma images_cut l : forall t u, images l = t ++ u ->
  exists l1 l2, l = l1 ++ l2 /\ (t = images l1 \/
    exists x l3 n, l2 = x :: l3 /\ 0 < n < blen (image x) /\ t = images l1 ++ btake n (image x)).
Proof.
  induction l as [|r l IH]; intros t u E.
  - exists [], []. split; [reflexivity|]. left. symmetry in E. apply app_eq_nil in E as [-> _]. reflexivity.
  - rewrite images_cons in E. destruct (N.le_gt_cases (blen (image r)) (blen t)) as [Hl|Hl].
    + pose proof (f_equal (btake (blen (image r))) E) as E1. rewrite btake_app_eq in E1 by reflexivity.
      rewrite btake_app_l in E1 by exact Hl.
      assert (T : t = image r ++ bdrop (blen (image r)) t) by (rewrite E1 at 1; symmetry; apply btake_bdrop).
      rewrite T, <- app_assoc in E. apply app_inv_head in E.
      destruct (IH _ _ E) as (l1 & l2 & -> & Hc). exists (r :: l1), l2. split; [reflexivity|].
      rewrite images_cons. destruct Hc as [Hc|(x & l3 & n & -> & Hn & Hc)].
      * left. rewrite T, Hc at 1. reflexivity.
      * right. exists x, l3, n. split; [reflexivity|]. split; [exact Hn|]. rewrite T, Hc at 1. rewrite app_assoc. reflexivity.
    + exists [], (r :: l). split; [reflexivity|]. destruct (N.eq_dec (blen t) 0) as [Z|Z].
      * left. destruct t; [reflexivity|]. rewrite blen_cons in Z. lia.
      * right. exists r, l, (blen t). split; [reflexivity|]. split; [lia|]. change (images []) with (@nil N). cbn [app].
        pose proof (f_equal (btake (blen t)) E) as E1. rewrite btake_app_l in E1 by lia.
        rewrite btake_app_eq in E1 by reflexivity. auto.
Qed.

(** A record can start in only one way. *)
Lemma records_cut ks l1 n x l : Forall (record_ok ks) l1 -> Forall (record_ok ks) l -> record_ok ks x ->
  0 < n < blen (image x) -> images l = images l1 ++ btake n (image x) -> False.
Proof.
  intros H1 Hl Hx Hn E. destruct (images_prefix ks l1 l _ H1 Hl E) as (l2 & -> & E2).
  apply Forall_app in Hl as [_ H2].
  assert (E3 : images [x] = images l2 ++ bdrop n (image x)).
  { rewrite <- E2, btake_bdrop. unfold images. cbn [flat_map]. apply app_nil_r. }
  destruct (images_prefix ks l2 [x] _ H2 (Forall_cons _ Hx (Forall_nil _)) E3) as (l3 & E4 & E5).
  destruct l2 as [|r l2].
  - apply (f_equal (@blen N)) in E2. rewrite blen_btake in E2. change (blen (images [])) with 0 in E2. lia.
  - injection E4 as <- E4. symmetry in E4. apply app_eq_nil in E4 as [-> ->].
    apply (f_equal (@blen N)) in E5. rewrite blen_bdrop in E5. change (blen (images [])) with 0 in E5. lia.
Qed.

(** ** The theorem *)
Lemma visit_beside torn e a l w s w' s' cb x :
  iter_ok e -> good_args a -> Forall (valid_op (ca_key_size a)) l -> lived e a l w s ->
  lived e a (l ++ [OpFlush]) w' s' -> beside torn (visit cb) (store_flush e s) w x ->
  let W := written sempty [] [] l in
  let W' := written sempty [] [] (l ++ [OpFlush]) in
  exists calls r, x = Ok (calls, r) /\
    ((exists new rest, items calls = W ++ new /\ W ++ new ++ rest = W' /\ no_error cb calls /\
        (r = Ok tt \/ torn = true /\ (r = Er short_read \/ r = Er EThrow))) \/
     (exists before k v er rest, calls = before ++ [VItem k v] /\ cb before k v = Some er /\ r = Er er /\
        no_error cb before /\ items calls ++ rest = W')).
Proof.
  intros Hit Ha Hv Hl Hl' Hb W W'. destruct (good_args_ok a Ha) as (Hp & _).
  assert (Hv' : Forall (valid_op (ca_key_size a)) (l ++ [OpFlush])) by (apply Forall_app; repeat constructor; auto).
  destruct (lived_written e a l w s Ha Hit Hv Hl) as (recs & T & i & b & Hi & _ & Hk).
  destruct (lived_written e a _ w' s' Ha Hit Hv' Hl') as (recs' & T' & i' & b' & Hi' & _ & Hk').
  fold W in Hk. fold W' in Hk'.
  (* the files after the flush *)
  assert (Hrun : fst (run (store_flush e s) w) = w').
  { destruct Hl as (os & Hl), Hl' as (os' & Hl'). rewrite (life_app e a l [OpFlush] w s os Hl) in Hl'.
    cbn [do_ops] in Hl'. unfold do_op in Hl'. cbn [op_prog] in Hl'. rewrite run_bind in Hl'.
    destruct (run (store_flush e s) w) as [w1 s1]. cbn [run fst] in *.
    destruct (done_out (st_ec s1)); injection Hl'; auto. }
  pose proof (si_disk _ _ _ _ _ _ Hi) as Dk. pose proof (si_disk _ _ _ _ _ _ Hi') as Dk'.
  set (p := dbp_of a) in *. set (ks := db_key_size p).
  assert (R : Forall (record_ok ks) (map rec_spec recs)) by (eapply rec_spec_ok; [apply p_bs; eauto|apply Dk]).
  assert (R' : Forall (record_ok ks) (map rec_spec recs')) by (eapply rec_spec_ok; [apply p_bs; eauto|apply Dk']).
  set (rs := map rec_spec recs) in *. set (rs' := map rec_spec recs') in *.
  assert (Hd : w_dat w = Some (db_hdr p ++ images rs)).
  { pose proof (dk_dat _ _ _ _ _ Dk) as X. rewrite enc_recs_images in X. exact X. }
  assert (Hd' : w_dat w' = Some (db_hdr p ++ images rs')).
  { pose proof (dk_dat _ _ _ _ _ Dk') as X. rewrite enc_recs_images in X. exact X. }
  assert (Hh : blen (db_hdr p) = 92) by apply p_hdr.
  (* the flush *)
  assert (Hw : writing torn ks (db_hdr p ++ images rs) (db_hdr p ++ images rs') (store_flush e s) w).
  { split.
    - eapply so_weaken; [apply (whole_flush e s ks)|apply whole_grow|auto].
      + destruct (si_kh _ _ _ _ _ _ Hi) as (B & ->). cbn [db_kh kh_block_size]. apply Hp.
      + destruct (si_kh _ _ _ _ _ _ Hi) as (B & ->). cbn [db_kh kh_block_size]. apply p_bs. exact Hp.
      + eapply Forall_impl; [|apply (si_batch _ _ _ _ _ _ Hi)]. intros y (_ & Y1 & Y2 & Y3). split; [exact Y1|]. auto.
    - exists (db_hdr p ++ images rs). split; [exact Hd|]. split; [rewrite Hrun; exact Hd'|].
      intros _. exists []. split; [apply records_nil|]. rewrite app_nil_r. reflexivity. }
  destruct (visit_snapshot torn ks _ _ cb _ w x _ Hb Hw Hd) as (t & w1 & q1 & Hw1 & Hd1 & Hx).
  { rewrite blen_app, Hh. unfold dat_hdr_size. lia. }
  destruct Hw1 as (Hs1 & d1 & Hd1' & HD1 & Hrec).
  assert (d1 = (db_hdr p ++ images rs) ++ t) by congruence. subst d1. clear Hd1'.
  (* it is a prefix of the final data file *)
  destruct (sops_run_grows torn ks q1 w1 _ Hs1 Hd1) as (u & Hu).
  assert (E : db_hdr p ++ images rs' = ((db_hdr p ++ images rs) ++ t) ++ u) by congruence. clear Hu HD1.
  rewrite <- !app_assoc in E. apply app_inv_head in E.
  destruct (images_prefix ks rs rs' _ R R' E) as (more & Em & Eu). symmetry in Eu.
  destruct (images_cut more t u Eu) as (l1 & l2 & El & Hc).
  assert (Rm : Forall (record_ok ks) more) by (rewrite Em in R'; apply Forall_app in R'; apply R').
  rewrite El in Rm. apply Forall_app in Rm as [R1 R2].
  assert (Rn : Forall (record_ok ks) (rs ++ l1)) by (apply Forall_app; auto).
  assert (Vs : values rs = W) by (unfold rs; rewrite values_kvs; exact Hk).
  assert (Vs' : W ++ values l1 ++ values l2 = W').
  { rewrite <- Hk', <- values_kvs. fold rs'. rewrite Em, El, !values_app, Vs. reflexivity. }
  assert (Hsz : blen (db_hdr p ++ images rs') < 18446744073709551616).
  { unfold rs'. rewrite <- (enc_recs_images recs'). pose proof (data_short e p recs' Hp (dk_recs _ _ _ _ _ Dk') (dk_ents _ _ _ _ _ Dk') (dk_low _ _ _ _ _ Dk')). lia. }
  assert (Hsz1 : blen ((db_hdr p ++ images rs) ++ t) < 18446744073709551616).
  { revert Hsz. rewrite Em, images_app, Eu. rewrite !blen_app. lia. }
  (* the result of the visit of a file with the records [rs ++ l1] and part of another *)
  assert (Fin : forall d o rest, d = (db_hdr p ++ images rs) ++ t ->
    spec_visit cb (blen d) 92 [VProgress 0 (blen d)] (rs ++ l1) = o ->
    (rest = Ok tt \/ torn = true /\ (rest = Er short_read \/ rest = Er EThrow)) ->
    x = Ok (finish o rest) ->
    exists calls r, x = Ok (calls, r) /\
    ((exists new rest, items calls = W ++ new /\ W ++ new ++ rest = W' /\ no_error cb calls /\
        (r = Ok tt \/ torn = true /\ (r = Er short_read \/ r = Er EThrow))) \/
     (exists before k v er rest, calls = before ++ [VItem k v] /\ cb before k v = Some er /\ r = Er er /\
        no_error cb before /\ items calls ++ rest = W'))).
  { intros d [tr o] rest _ Es Hrest Hx'.
    apply spec_visit_calls in Es; [|apply (no_error_progress _ []); apply no_error_nil].
    rewrite values_app, Vs in Es. cbn [items app] in Es. destruct o as [er|]; cbn [finish] in Hx'.
    - destruct Es as (bf & k & v & more' & E1 & E2 & E3 & E4). exists tr, (Er er). split; [exact Hx'|].
      right. exists bf, k, v, er, (more' ++ values l2). split; [exact E1|]. split; [exact E2|]. split; [reflexivity|].
      split; [exact E3|]. rewrite app_assoc, E4, <- app_assoc. exact Vs'.
    - destruct Es as [E1 E2]. exists tr, rest. split; [exact Hx'|]. left. exists (values l1), (values l2).
      split; [exact E1|]. split; [exact Vs'|]. split; [exact E2|exact Hrest]. }
  destruct Hc as [Hc|(y & l3 & n & -> & Hn & Hc)].
  - assert (Ed : (db_hdr p ++ images rs) ++ t = db_hdr p ++ images (rs ++ l1)) by (rewrite images_app, Hc, app_assoc; reflexivity).
    destruct (dat_checks_db p (images (rs ++ l1)) Hp) as (A & B & C).
    eapply Fin; [reflexivity|reflexivity|left; reflexivity|].
    rewrite Hx, Ed in *. rewrite (visit_file cb (snap (db_hdr p ++ images (rs ++ l1))) (db_hdr p) (rs ++ l1)); auto.
    rewrite B. exact Rn.
  - assert (Ed : (db_hdr p ++ images rs) ++ t = db_hdr p ++ images (rs ++ l1) ++ btake n (image y))
      by (rewrite images_app, Hc, <- !app_assoc; reflexivity).
    assert (Ry : record_ok ks y) by (inversion R2; auto).
    destruct (dat_checks_db p (images (rs ++ l1) ++ btake n (image y)) Hp) as (A & B & C).
    destruct torn eqn:Et.
    + eapply Fin; [reflexivity|reflexivity| |].
      2: { rewrite Hx, Ed in *.
           rewrite (visit_truncated cb (snap (db_hdr p ++ images (rs ++ l1) ++ btake n (image y))) (db_hdr p) (rs ++ l1) y n); [reflexivity|..]; auto.
           rewrite B. apply Forall_app. split; [exact Rn|repeat constructor; exact Ry]. }
      right. split; [reflexivity|]. destruct y; [destruct (n <? 6)|]; auto.
    + exfalso. destruct (Hrec eq_refl) as (z & (m & Rm & ->) & Ez). rewrite <- !app_assoc in Ez.
      apply app_inv_head in Ez. apply app_inv_head in Ez. rewrite Hc in Ez.
      apply (records_cut ks l1 n y m R1 Rm Ry Hn). symmetry. exact Ez.
Qed.

(** ** Building cases *)

(** The visit happens entirely at one moment of the other program. *)
Lemma beside_at_once {A B} torn (p : prog A) : forall (q : prog B) w, beside torn p q w (snd (run p w)).
Proof.
  induction p as [a|o k IH]; intros q w; [constructor|]. constructor. cbn [run].
  destruct (exec o w) as [w1 r] eqn:E. cbn [fst snd]. apply IH.
Qed.

(** The other program up to its next write to the data file: what it writes, the rest, the files. *)
Fixpoint to_data {B} (q : prog B) (w : world) : option (bool * N * bytes * (rsp -> prog B) * world) :=
  match q with
  | Ret _ => None
  | Do (IoWrite FDat ap off d) k => Some (ap, off, d, k, w)
  | Do o k => to_data (k (snd (exec o w))) (fst (exec o w))
  end.

Lemma to_data_beside {A B} torn (p : prog A) (q : prog B) : forall w ap off d k w1 a, to_data q w = Some (ap, off, d, k, w1) ->
  beside torn p (Do (IoWrite FDat ap off d) k) w1 a -> beside torn p q w a.
Proof.
  induction q as [b|o k' IH]; intros w ap off d k w1 a E H; [discriminate|].
  assert (D : (exists ap' off' d', o = IoWrite FDat ap' off' d') \/
    to_data (Do o k') w = to_data (k' (snd (exec o w))) (fst (exec o w))).
  { destruct o; try (right; reflexivity). destruct f; try (right; reflexivity). left. eauto. }
  destruct D as [(ap' & off' & d' & ->)|D].
  - cbn [to_data] in E. injection E as -> -> -> -> ->. exact H.
  - rewrite D in E. apply bs_other. eapply IH; eauto.
Qed.

(** What [p] may answer when it runs while [n] bytes of that write have been done. *)
Definition in_part {A B} (n : N) (p : prog A) (q : prog B) (w : world) : option A :=
  match to_data q w with
  | Some (ap, off, d, _, w1) =>
    match exec (IoWrite FDat ap off (btake n d)) w1 with
    | (w2, ROk 0 []) => if (0 <? n) && (n <? blen d) then Some (snd (run p w2)) else None
    | _ => None
    end
  | None => None
  end.
Lemma in_part_beside {A B} n (p : prog A) (q : prog B) w a : in_part n p q w = Some a -> beside true p q w a.
Proof.
  unfold in_part. destruct (to_data q w) as [[[[[ap off] d] k] w1]|] eqn:E; [|discriminate]. intros H.
  apply (to_data_beside true p q w ap off d k w1 a E). clear E.
  destruct (exec (IoWrite FDat ap off (btake n d)) w1) as [w2 r] eqn:X.
  destruct r as [er|[|n0] [|b bs]]; try discriminate H.
  destruct ((0 <? n) && (n <? blen d)) eqn:C; [|discriminate H]. injection H as <-.
  apply andb_prop in C as [C1 C2]. apply N.ltb_lt in C1, C2.
  rewrite <- (btake_bdrop n d). apply bs_part; [reflexivity|rewrite blen_btake; lia|rewrite X; reflexivity|].
  rewrite X. cbn [fst]. apply beside_at_once.
Qed.
