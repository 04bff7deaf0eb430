(** Buffered access with memory does what BulkIO.v says, and stays inside its blocks. *)
From Verif Require Import Model.Bytes Model.Err Model.Field Model.Format Model.IO Model.BulkIO
  Model.Bucket Model.BucketMem Model.BufferMem SpecBuffer
  Proofs.BytesFacts Proofs.IOFacts Proofs.BulkFacts Proofs.FormatFacts.

(** ** Programs that do the same with related results *)

Definition sized (o : io) (r : rsp) : Prop :=
  match r with
  | RErr er => er <> EUB
  | ROk _ d => match o with IoRead _ _ len => blen d = len | _ => True end
  end.
Lemma plausible_sized o r : plausible o r -> sized o r.
Proof. destruct r as [er|n d]; cbn; [intros H ->; exact H|]. destruct o; tauto. Qed.
Lemma exec_sized o w : sized o (snd (exec o w)).
Proof.
  destruct o; cbn [exec]; destruct (wget w f) as [c|]; cbn; auto; try discriminate.
  - destruct ((len =? 0) || (off + len <=? blen c)) eqn:E; cbn; [|discriminate].
    apply Bool.orb_true_iff in E as [E|E].
    + apply N.eqb_eq in E as ->. unfold bsub. rewrite btake_0. reflexivity.
    + apply blen_bsub. lia.
  - destruct (append && negb (off =? blen c)); cbn; auto. discriminate.
Qed.

Fixpoint sim {A B} (R : A -> B -> Prop) (p : prog A) (q : prog B) : Prop :=
  match p, q with
  | Ret a, Ret b => R a b
  | Do o k, Do o' k' => o = o' /\ forall r, sized o r -> sim R (k r) (k' r)
  | _, _ => False
  end.

Lemma sim_run {A B} (R : A -> B -> Prop) p : forall q w, sim R p q ->
  fst (run p w) = fst (run q w) /\ R (snd (run p w)) (snd (run q w)).
Proof.
  induction p as [a|o k IH]; intros [b|o' k'] w; cbn [sim]; try contradiction.
  - intros H. split; [reflexivity|exact H].
  - intros [<- H]. cbn [run]. pose proof (exec_sized o w) as S. destruct (exec o w) as [w' r]. cbn [snd] in S.
    apply IH. apply H. exact S.
Qed.
Lemma sim_yields {A B} (R : A -> B -> Prop) p : forall q, sim R p q -> forall a, yields p a ->
  exists b, yields q b /\ R a b.
Proof.
  induction p as [a0|o k IH]; intros [b|o' k']; cbn [sim]; try contradiction.
  - intros H a Ha. inversion Ha; subst. exists b. split; [constructor|exact H].
  - intros [<- H] a Ha. inversion Ha as [|? ? r ? Hp Hr]; subst.
    destruct (IH r (k' r) (H r (plausible_sized _ _ Hp)) a Hr) as (b & Y & Z).
    exists b. split; [|exact Z]. econstructor; eauto.
Qed.
Lemma sim_bind {A B C D} (R : A -> B -> Prop) (R' : C -> D -> Prop) f g :
  (forall a b, R a b -> sim R' (f a) (g b)) ->
  forall p q, sim R p q -> sim R' (bind p f) (bind q g).
Proof.
  intros Hf. induction p as [a|o k IH]; intros [b|o' k']; cbn [sim bind]; try contradiction.
  - apply Hf.
  - intros [<- H]. split; [reflexivity|]. intros r Hr. apply IH. apply H. exact Hr.
Qed.

Definition rsim {A B} (R : A -> B -> Prop) (x : res A) (y : res B) : Prop :=
  match x, y with
  | Ok a, Ok b => R a b
  | Er e, Er e' => e = e' /\ e <> EUB
  | _, _ => False
  end.
Lemma sim_ebind {A B C D} (R : A -> B -> Prop) (R' : C -> D -> Prop) p q f g :
  sim (rsim R) p q -> (forall a b, R a b -> sim (rsim R') (f a) (g b)) ->
  sim (rsim R') (ebind p f) (ebind q g).
Proof.
  intros Hp Hf. unfold ebind. eapply sim_bind; [|exact Hp].
  intros [a|e] [b|e'] H; cbn [rsim] in H; try contradiction; [apply Hf; exact H|cbn; exact H].
Qed.
Lemma sim_read f off len : sim (rsim (fun d d' => d = d' /\ blen d = len)) (p_read f off len) (p_read f off len).
Proof.
  cbn. split; [reflexivity|]. intros [er|n d] H; cbn in *; auto.
Qed.
Lemma sim_write f ap off d : sim (rsim (fun _ _ => True)) (p_write f ap off d) (p_write f ap off d).
Proof.
  cbn. split; [reflexivity|]. intros [er|n x] H; cbn in *; auto.
Qed.

Lemma bsub_bef {A} o n off (d f : list A) : o + n <= off -> off + blen d <= blen f ->
  forall g : list A, g = btake off f ++ d ++ bdrop (off + blen d) f -> bsub o n g = bsub o n f.
Proof.
  intros H1 H2 g ->. rewrite bsub_app_l by (rewrite blen_btake; lia). apply bsub_btake. lia.
Qed.
Lemma bwrite_before o n off d f : o + n <= off -> off + blen d <= blen f -> bsub o n (bwrite off d f) = bsub o n f.
Proof. intros H1 H2. eapply bsub_bef; [exact H1|exact H2|]. apply bwrite_in. lia. Qed.
Lemma bwrite_there off d f : off + blen d <= blen f -> bsub off (blen d) (bwrite off d f) = d.
Proof.
  intros H. rewrite bwrite_in by lia. apply bsub_app_eq; [|reflexivity]. rewrite blen_btake. lia.
Qed.
Lemma bwrite_upto off d f : off + blen d <= blen f -> bsub 0 (off + blen d) (bwrite off d f) = bsub 0 off f ++ d.
Proof.
  intros H. rewrite bsub_split, N.add_0_l. rewrite bwrite_there by lia.
  rewrite bwrite_before by lia. reflexivity.
Qed.
Lemma bsub_none {A} o (l : list A) : bsub o 0 l = [].
Proof. unfold bsub. apply btake_0. Qed.
Lemma bsub_bdrop {A} n o m (l : list A) : n <= m -> bdrop n (bsub o m l) = bsub (o + n) (m - n) l.
Proof. intros H. unfold bsub. rewrite bdrop_btake, bdrop_bdrop. reflexivity. Qed.
Lemma bsub_take {A} n o m (l : list A) : n <= m -> btake n (bsub o m l) = bsub o n l.
Proof. intros H. unfold bsub. rewrite btake_btake. f_equal. lia. Qed.

Section junk.
Context (junk : N -> bytes) (Hj : forall n, blen (junk n) = n).

Definition bfit (b : buffer) : Prop := bf_size b <= blen (bf_mem b).
Lemma bfit_new : bfit bf_new.
Proof using All. unfold bfit, bf_new. cbn. lia. Qed.
Lemma bfit_reserve n b : bfit b -> bfit (bf_reserve junk n b).
Proof using All.
  unfold bfit, bf_reserve. cbn [bf_size bf_mem]. destruct (bf_size b <? n) eqn:E; [rewrite Hj|]; lia.
Qed.

(** ** Readers *)
Definition rrel (m : mreader) (r : breader) : Prop :=
  mr_file m = br_file r /\ mr_last m = br_last r /\ mr_off m = br_off r /\
  bf_size (mr_buf m) = br_cap r /\ br_avail r = bsub (mr_used m) (mr_avail m) (bf_mem (mr_buf m)) /\
  mr_used m + mr_avail m <= bf_size (mr_buf m) /\ bfit (mr_buf m).

Lemma rrel_make f off last size : rrel (mr_make junk f off last size) (br_make f off last size).
Proof using All.
  unfold rrel, mr_make, br_make. cbn [mr_file mr_last mr_off mr_buf mr_used mr_avail br_file br_last br_off br_cap br_avail].
  repeat split; try reflexivity.
  - rewrite N.add_0_l. cbn [bf_reserve bf_size]. lia.
  - apply bfit_reserve, bfit_new.
Qed.

Definition prep_rel (needed : N) (x : istream * mreader) (y : bytes * breader) : Prop :=
  rrel (snd x) (snd y) /\ is_size (fst x) = needed /\
  is_pos (fst x) + needed <= blen (bf_mem (mr_buf (snd x))) /\
  fst y = bsub (is_pos (fst x)) needed (bf_mem (mr_buf (snd x))).

Lemma sim_prepare m r needed : rrel m r -> sim (rsim (prep_rel needed)) (mr_prepare junk m needed) (br_prepare r needed).
Proof using All.
  intros (H1 & H2 & H3 & H4 & H5 & H6 & H7). unfold bfit in H7. unfold mr_prepare, br_prepare.
  assert (L : blen (br_avail r) = mr_avail m) by (rewrite H5; apply blen_bsub; lia).
  rewrite L, <- H1, <- H2, <- H3, <- H4.
  apply (sim_ebind (fun m r => rrel m r /\ needed <= mr_avail m)).
  - destruct (mr_avail m <? needed) eqn:E1.
    2:{ split; [unfold rrel, bfit; auto 10|lia]. }
    destruct (mr_last m <? mr_off m + needed - mr_avail m) eqn:E2; [split; [reflexivity|discriminate]|].
    unfold bf_need at 1, bf_in at 1. replace (mr_used m + mr_avail m <=? blen (bf_mem (mr_buf m))) with true by lia.
    set (old := bsub (mr_used m) (mr_avail m) (bf_mem (mr_buf m))) in *.
    assert (Lo : blen old = mr_avail m) by (rewrite <- H5; exact L).
    set (b := if bf_size (mr_buf m) <? needed then bf_reserve junk needed bf_new else mr_buf m).
    assert (Hb : bf_size b = (if bf_size (mr_buf m) <? needed then needed else bf_size (mr_buf m)) /\ bfit b).
    { unfold b. destruct (bf_size (mr_buf m) <? needed); split; try reflexivity; [apply bfit_reserve, bfit_new|exact H7]. }
    destruct Hb as [Hb Hf]. unfold bfit in Hf. rewrite <- Hb.
    assert (Hn : needed <= bf_size b) by (rewrite Hb; destruct (bf_size (mr_buf m) <? needed) eqn:E; lia).
    clearbody b. clear Hb.
    unfold bf_need at 1, bf_in at 1. replace (0 + mr_avail m <=? blen (bf_mem b)) with true by lia.
    cbn [bf_size bf_mem].
    unfold bf_need at 1.
    replace ((mr_avail m <=? bf_size b) && (mr_off m <=? mr_last m)) with true
      by (symmetry; apply Bool.andb_true_iff; split; lia).
    unfold bf_need, bf_in. cbn [bf_size bf_mem]. rewrite blen_bwrite by lia.
    set (n := N.min (bf_size b - mr_avail m) (mr_last m - mr_off m)).
    assert (Ln : n <= bf_size b - mr_avail m) by (unfold n; lia).
    assert (Ln2 : needed <= mr_avail m + n) by (unfold n; lia).
    replace (mr_avail m + n <=? blen (bf_mem b)) with true by lia.
    clearbody n.
    eapply sim_ebind; [apply sim_read|]. intros d ? [<- Hd]. cbn [sim pret rsim].
    split; [|cbn [mr_avail]; lia].
    unfold rrel, bfit. cbn [mr_file mr_last mr_off mr_buf mr_used mr_avail br_file br_last br_off br_cap br_avail bf_size bf_mem].
    assert (Lb : blen (bwrite 0 old (bf_mem b)) = blen (bf_mem b)) by (apply blen_bwrite; lia).
    repeat split; auto.
    + rewrite H5. rewrite <- Hd, bwrite_upto by (rewrite Lb; lia). f_equal.
      symmetry. rewrite <- Lo. apply bwrite_there. lia.
    + lia.
    + rewrite blen_bwrite by (rewrite Lb; lia). rewrite Lb. lia.
  - intros m' r' [(K1 & K2 & K3 & K4 & K5 & K6 & K7) Hn]. unfold bfit in K7. cbn [sim pret rsim]. unfold prep_rel. cbn [fst snd is_size is_pos mr_buf].
    split; [|split; [reflexivity|split]].
    + unfold rrel. cbn [mr_file mr_last mr_off mr_buf mr_used mr_avail br_file br_last br_off br_cap br_avail].
      repeat split; auto; [|lia]. rewrite K5. apply bsub_bdrop. exact Hn.
    + lia.
    + rewrite K5. apply bsub_take. exact Hn.
Qed.

(** The fields of a record of [d]. *)
Definition cut (d : bytes) (ks : list N) : res (list bytes) :=
  if total ks <=? blen d then Ok (pieces 0 d ks) else Er EAssert.

Lemma pieces_shift (mem : bytes) n ks : forall p o, o + total ks <= n ->
  pieces o (bsub p n mem) ks = pieces (p + o) mem ks.
Proof using All.
  induction ks as [|k ks IH]; intros p o H; cbn [pieces total] in *; [reflexivity|]. f_equal.
  - apply bsub_bsub. lia.
  - rewrite IH by lia. f_equal. lia.
Qed.

Lemma fields_ok b ks : forall is, is_pos is + is_size is <= blen (bf_mem b) ->
  is_fields b is ks = if total ks <=? is_size is then Ok (pieces (is_pos is) (bf_mem b) ks) else Er EAssert.
Proof using All.
  induction ks as [|k ks IH]; intros is H; cbn [is_fields total pieces].
  - replace (0 <=? is_size is) with true by lia. reflexivity.
  - unfold is_data, bf_in. destruct (is_size is <? k) eqn:E1; cbn [rbind].
    + replace (k + total ks <=? is_size is) with false by lia. reflexivity.
    + replace (is_pos is + k <=? blen (bf_mem b)) with true by lia. cbn [rbind fst snd].
      rewrite IH by (cbn [is_pos is_size]; lia). cbn [is_pos is_size].
      destruct (total ks <=? is_size is - k) eqn:E2; cbn [rbind].
      * replace (k + total ks <=? is_size is) with true by lia. reflexivity.
      * replace (k + total ks <=? is_size is) with false by lia. reflexivity.
Qed.

Fixpoint cut_records (r : breader) (l : list (N * list N)) : prog (res (list (list bytes))) :=
  match l with
  | [] => pret []
  | (needed, ks) :: l =>
    '(d, r) <- br_prepare r needed ;;
    x <- plift (cut d ks) ;;
    ds <- cut_records r l ;;
    pret (x :: ds)
  end.

Lemma sim_records l : forall m r, rrel m r -> sim (rsim eq) (mr_records junk m l) (cut_records r l).
Proof using All.
  induction l as [|(needed, ks) l IH]; intros m r H; cbn [mr_records cut_records]; [reflexivity|].
  eapply sim_ebind; [apply sim_prepare; exact H|].
  intros (is, m') (d, r') (Hr & Hs & Hp & Hd). cbn [fst snd] in *.
  eapply (sim_ebind eq).
  - cbn [sim plift]. rewrite fields_ok by lia. unfold cut.
    assert (Ld : blen d = needed) by (rewrite Hd; apply blen_bsub; lia). rewrite Ld, Hs.
    destruct (total ks <=? needed) eqn:E; cbn [rsim]; [|split; [reflexivity|discriminate]].
    rewrite Hd, pieces_shift by lia. f_equal. lia.
  - intros x ? <-. eapply (sim_ebind eq); [apply IH; exact Hr|]. intros ds ? <-. reflexivity.
Qed.

Lemma cut_records_ok c w l : small l -> forall r,
  br_inv c r -> wget w (br_file r) = Some c ->
  run (cut_records r l) w =
  (w, if br_offset r + total (map fst l) <=? br_last r then Ok (fields_of (br_offset r) c l) else Er short_read).
Proof using All.
  induction 1 as [|(n, ks) l Hk Hl IH]; intros r Hi Hw.
  - cbn [cut_records map total fields_of]. destruct Hi as [? ? ? ?]. unfold br_offset in *.
    replace (br_off r - blen (br_avail r) + 0 <=? br_last r) with true by lia. reflexivity.
  - cbn [cut_records map total fields_of fst snd] in *.
    destruct (N.le_gt_cases (br_offset r + n) (br_last r)) as [L|L].
    + destruct (run_br_prepare c r w n Hi Hw L) as (r' & Hr & Hi' & Ho & Hf & Hl').
      rewrite (run_ebind_ok _ _ _ _ _ Hr). cbv beta iota.
      assert (Hw' : wget w (br_file r') = Some c) by (rewrite Hf; auto).
      specialize (IH r' Hi' Hw'). rewrite Ho, Hl' in IH.
      assert (Hc : br_last r <= blen c) by (destruct Hi; assumption).
      assert (Hcut : cut (bsub (br_offset r) n c) ks = Ok (pieces (br_offset r) c ks)).
      { unfold cut. rewrite blen_bsub by lia. replace (total ks <=? n) with true by lia.
        rewrite pieces_shift by lia. do 2 f_equal. lia. }
      rewrite Hcut. rewrite (run_ebind_ok (plift (Ok (pieces (br_offset r) c ks))) _ w w _ eq_refl).
      replace (br_offset r + (n + total (map fst l))) with (br_offset r + n + total (map fst l)) by lia.
      destruct (br_offset r + n + total (map fst l) <=? br_last r).
      * rewrite (run_ebind_ok _ _ _ _ _ IH). reflexivity.
      * rewrite (run_ebind_er _ _ _ _ _ IH). reflexivity.
    + rewrite (run_ebind_er _ _ _ _ _ (run_br_prepare_short c r w n Hi L)).
      replace (br_offset r + (n + total (map fst l)) <=? br_last r) with false by lia. reflexivity.
Qed.

Lemma rsim_eq {A} (x y : res A) : rsim eq x y -> x = y /\ x <> Er EUB.
Proof using All.
  destruct x, y; cbn; try contradiction; [intros ->|intros [-> H]]; split; try reflexivity; [discriminate|].
  intros X. injection X as X. contradiction.
Qed.

Lemma read_exact f c off last size l w : small l ->
  wget w f = Some c -> off <= last -> last <= blen c ->
  run (read_records junk f off last size l) w =
  (w, if off + total (map fst l) <=? last then Ok (fields_of off c l) else Er short_read).
Proof using All.
  intros Hs Hw H1 H2. unfold read_records.
  destruct (sim_run _ _ _ w (sim_records l _ _ (rrel_make f off last size))) as [E1 E2].
  apply rsim_eq in E2 as [E2 _].
  rewrite (surjective_pairing (run (mr_records _ _ _) w)), E1, E2, <- surjective_pairing.
  rewrite (cut_records_ok c w l Hs); auto using br_make_inv. rewrite br_make_offset. reflexivity.
Qed.
Lemma read_inside f off last size l x : yields (read_records junk f off last size l) x -> x <> Er EUB.
Proof using All.
  intros H. destruct (sim_yields _ _ _ (sim_records l _ _ (rrel_make f off last size)) _ H) as (y & _ & E).
  apply rsim_eq in E as [_ E]. exact E.
Qed.

(** ** Writers *)
Definition wrel (m : mwriter) (w : bwriter) : Prop :=
  mw_file m = bw_file w /\ mw_append m = bw_append w /\ mw_off m = bw_off w /\
  bf_size (mw_buf m) = bw_cap w /\ bw_buf w = bsub 0 (mw_used m) (bf_mem (mw_buf m)) /\
  mw_used m <= bf_size (mw_buf m) /\ bfit (mw_buf m).
Lemma wrel_used m w : wrel m w -> blen (bw_buf w) = mw_used m.
Proof using All.
  intros (_ & _ & _ & _ & H & H1 & H2). unfold bfit in H2. rewrite H. apply blen_bsub. lia.
Qed.
Lemma wrel_make f ap off size : wrel (mw_make junk f ap off size) (bw_make f ap off size).
Proof using All.
  unfold wrel, mw_make, bw_make. cbn [mw_file mw_append mw_off mw_used mw_buf bw_file bw_append bw_off bw_cap bw_buf].
  repeat split; try reflexivity; [lia|apply bfit_reserve, bfit_new].
Qed.
Lemma wrel_offset m w : wrel m w -> mw_offset m = bw_offset w.
Proof using All. intros H. unfold mw_offset, bw_offset. rewrite (wrel_used _ _ H). destruct H as (_ & _ & -> & _). reflexivity. Qed.

Lemma sim_flush m w : wrel m w ->
  sim (rsim (fun m' w' => wrel m' w' /\ mw_used m' = 0 /\ bf_size (mw_buf m') = bf_size (mw_buf m))) (mw_flush m) (bw_flush w).
Proof using All.
  intros H. pose proof (wrel_used _ _ H) as L. unfold mw_flush, bw_flush. rewrite L.
  destruct (mw_used m =? 0) eqn:E.
  - apply N.eqb_eq in E. cbn. auto.
  - destruct H as (H1 & H2 & H3 & H4 & H5 & H6 & H7). unfold bfit in H7.
    unfold bf_need, bf_in. replace (0 + mw_used m <=? blen (bf_mem (mw_buf m))) with true by lia.
    rewrite <- H1, <- H2, <- H3, <- H4, H5.
    eapply sim_ebind; [apply sim_write|]. intros _ _ _. cbn [sim pret rsim].
    split; [|split; reflexivity]. unfold wrel, bfit.
    cbn [mw_file mw_append mw_off mw_used mw_buf bw_file bw_append bw_off bw_cap bw_buf].
    repeat split; try reflexivity; auto; lia.
Qed.

Lemma os_fields_ok ds : forall b os, bfit b -> os + blen (concat ds) <= bf_size b ->
  exists b', os_fields b os ds = Ok b' /\ bf_size b' = bf_size b /\ bfit b' /\
    bsub 0 (os + blen (concat ds)) (bf_mem b') = bsub 0 os (bf_mem b) ++ concat ds.
Proof using All.
  induction ds as [|d ds IH]; intros b os Hb H; cbn [os_fields concat] in *.
  - exists b. rewrite app_nil_r, N.add_0_r. auto.
  - rewrite blen_app in H. unfold bfit in Hb. unfold os_write, bf_in.
    replace (os + blen d <=? blen (bf_mem b)) with true by lia. cbn [rbind fst snd].
    assert (Lb : blen (bwrite os d (bf_mem b)) = blen (bf_mem b)) by (apply blen_bwrite; lia).
    destruct (IH (Buf (bf_size b) (bwrite os d (bf_mem b))) (os + blen d)) as (b' & E & S & F & C).
    + unfold bfit. cbn [bf_size bf_mem]. lia.
    + cbn [bf_size]. lia.
    + cbn [bf_size bf_mem] in *. exists b'. split; [exact E|]. split; [exact S|]. split; [exact F|].
      rewrite blen_app, N.add_assoc, C, bwrite_upto by lia. rewrite app_assoc. reflexivity.
Qed.

Lemma sim_assoc {A B C D} (R : res C -> D -> Prop) (f : A -> prog (res B)) (g : B -> prog (res C)) p :
  forall q, sim R (ebind p (fun a => ebind (f a) g)) q -> sim R (ebind (ebind p f) g) q.
Proof using All.
  unfold ebind. induction p as [[a|e]|o k IH]; intros q; cbn [bind]; auto.
  destruct q as [d|o' k']; cbn [sim]; [auto|]. intros [-> H]. split; [reflexivity|]. intros r Hr. apply IH. apply H. exact Hr.
Qed.
Lemma sim_mono {A B} (R R' : A -> B -> Prop) : (forall a b, R a b -> R' a b) ->
  forall p q, sim R p q -> sim R' p q.
Proof using All.
  intros HR. induction p as [a|o k IH]; intros [b|o' k']; cbn [sim]; try contradiction; [apply HR|].
  intros [-> H]. split; [reflexivity|]. intros r Hr. apply IH. apply H. exact Hr.
Qed.

(** The first part of prepare(). *)
Lemma sim_room m w needed : wrel m w ->
  sim (rsim (fun m' w' => wrel m' w' /\ (mw_used m' = 0 \/ mw_used m' + needed <= bf_size (mw_buf m'))))
    (if bf_size (mw_buf m) <? mw_used m + needed then mw_flush m else pret m)
    (if bw_cap w <? blen (bw_buf w) + needed then bw_flush w else pret w).
Proof using All.
  intros H. pose proof (wrel_used _ _ H) as L. rewrite L.
  assert (Hc : bf_size (mw_buf m) = bw_cap w) by (destruct H as (_ & _ & _ & -> & _); reflexivity).
  rewrite <- Hc. destruct (bf_size (mw_buf m) <? mw_used m + needed) eqn:E.
  - eapply sim_mono; [|apply sim_flush; exact H].
    intros [a|e] [b|e']; cbn [rsim]; try tauto.
  - cbn. split; [exact H|]. right. lia.
Qed.

(** The second part, and the fields. *)
Lemma wrel_fill m w needed ds : wrel m w -> (mw_used m = 0 \/ mw_used m + needed <= bf_size (mw_buf m)) ->
  blen (concat ds) = needed ->
  let b := if bf_size (mw_buf m) <? needed then bf_reserve junk needed (mw_buf m) else mw_buf m in
  exists b', os_fields b (mw_used m) ds = Ok b' /\
    wrel (MWriter (mw_file m) (mw_append m) (mw_off m) (mw_used m + needed) b')
      (BWriter (bw_file w) (bw_append w) (bw_off w) (bw_buf w ++ concat ds) (if bw_cap w <? needed then needed else bw_cap w)).
Proof using All.
  intros (H1 & H2 & H3 & H4 & H5 & H6 & H7) Hu Hd b. rewrite <- H4.
  assert (Hb : bf_size b = (if bf_size (mw_buf m) <? needed then needed else bf_size (mw_buf m)) /\ bfit b /\
               bsub 0 (mw_used m) (bf_mem b) = bsub 0 (mw_used m) (bf_mem (mw_buf m)) /\ mw_used m + needed <= bf_size b).
  { unfold b. destruct (bf_size (mw_buf m) <? needed) eqn:E.
    - assert (U0 : mw_used m = 0) by lia. rewrite U0, !bsub_none.
      repeat split; [apply bfit_reserve; exact H7|cbn [bf_reserve bf_size]; lia].
    - repeat split; [exact H7|lia]. }
  destruct Hb as (Hb1 & Hb2 & Hb3 & Hb4).
  destruct (os_fields_ok ds b (mw_used m) Hb2) as (b' & E & S & F & C); [lia|].
  exists b'. split; [exact E|]. unfold wrel. rewrite <- Hb1.
  cbn [mw_file mw_append mw_off mw_used mw_buf bw_file bw_append bw_off bw_cap bw_buf].
  repeat split; auto; [|lia]. rewrite H5, <- Hb3, <- Hd. symmetry. exact C.
Qed.

Lemma sim_record m w needed ds : wrel m w -> blen (concat ds) = needed ->
  sim (rsim wrel) (mw_record junk m needed ds) (bw_put w (concat ds)).
Proof using All.
  intros H Hd. unfold mw_record, mw_prepare, bw_put. cbv zeta. apply sim_assoc. rewrite Hd.
  eapply sim_ebind; [apply sim_room; exact H|]. intros m' w' [H' Hu].
  destruct (wrel_fill m' w' needed ds H' Hu Hd) as (b' & E & W).
  unfold ebind. cbn [bind pret plift mw_buf mw_file mw_append mw_off mw_used]. rewrite E. cbn [bind sim rsim]. exact W.
Qed.

Definition wpair (x : list N * mwriter) (y : list N * bwriter) : Prop := fst x = fst y /\ wrel (snd x) (snd y).
Lemma sim_records_w l : full l -> forall m w, wrel m w ->
  sim (rsim wpair) (mw_records junk m l) (put_pieces w (record_bytes l)).
Proof using All.
  induction 1 as [|(needed, ds) l Hd Hl IH]; intros m w H; unfold record_bytes; cbn [mw_records put_pieces map fst snd] in *.
  - split; [reflexivity|exact H].
  - cbv zeta. rewrite (wrel_offset _ _ H).
    eapply sim_ebind; [apply sim_record; [exact H|exact Hd]|]. intros m' w' H'.
    eapply sim_ebind; [apply IH; exact H'|]. intros (os, m2) (os', w2) [E W]. cbn [fst snd] in *.
    split; cbn [fst snd]; [congruence|exact W].
Qed.
Lemma sim_write_records f off size l : full l ->
  sim (rsim eq) (write_records junk f off size l) (write_pieces f off size (record_bytes l)).
Proof using All.
  intros Hl. unfold write_records, write_pieces.
  eapply sim_ebind; [apply sim_records_w; [exact Hl|apply wrel_make]|]. intros (os, m) (os', w) [E W]. cbn [fst snd] in *.
  eapply sim_ebind; [apply sim_flush; exact W|]. intros _ _ _. exact E.
Qed.

Lemma write_exact f c size l w : full l -> wget w f = Some c ->
  run (write_records junk f (blen c) size l) w =
  (wset w f (Some (c ++ concat (record_bytes l))),
   Ok (positions (blen c) (record_bytes l))).
Proof using All.
  intros Hs Hw.
  destruct (sim_run _ _ _ w (sim_write_records f (blen c) size l Hs)) as [E1 E2].
  apply rsim_eq in E2 as [E2 _].
  rewrite (surjective_pairing (run (write_records _ _ _ _ _) w)), E1, E2, <- surjective_pairing.
  apply bulk_write. exact Hw.
Qed.

(** ** Writers whose records need not be filled *)
Definition wfit (m m' : mwriter) : Prop := m = m' /\ mw_used m <= bf_size (mw_buf m) /\ bfit (mw_buf m).

Lemma fit_flush m : mw_used m <= bf_size (mw_buf m) -> bfit (mw_buf m) ->
  sim (rsim (fun m1 m2 => wfit m1 m2 /\ mw_used m1 = 0 /\ mw_buf m1 = mw_buf m)) (mw_flush m) (mw_flush m).
Proof using All.
  intros H1 H2. unfold mw_flush. destruct (mw_used m =? 0) eqn:E.
  - cbn. apply N.eqb_eq in E. unfold wfit. auto 10.
  - unfold bfit in H2. unfold bf_need, bf_in. replace (0 + mw_used m <=? blen (bf_mem (mw_buf m))) with true by lia.
    eapply sim_ebind; [apply sim_write|]. intros _ _ _. cbn. unfold wfit, bfit. cbn [mw_used mw_buf].
    repeat split; auto. lia.
Qed.
Lemma fit_record m needed ds : mw_used m <= bf_size (mw_buf m) -> bfit (mw_buf m) -> blen (concat ds) <= needed ->
  sim (rsim wfit) (mw_record junk m needed ds) (mw_record junk m needed ds).
Proof using All.
  intros H1 H2 Hd. unfold mw_record, mw_prepare.
  eapply (sim_ebind (fun x y => x = y /\ bfit (mw_buf (snd x)) /\ fst x + needed = mw_used (snd x) /\
            mw_used (snd x) <= bf_size (mw_buf (snd x)))).
  - apply (sim_ebind (fun m1 m2 => wfit m1 m2 /\ (mw_used m1 = 0 \/ mw_used m1 + needed <= bf_size (mw_buf m1)))).
    + destruct (bf_size (mw_buf m) <? mw_used m + needed) eqn:E.
      * eapply sim_mono; [|apply fit_flush; assumption]. intros [a|e] [b|e']; cbn [rsim]; tauto.
      * cbn. split; [unfold wfit; auto|right; lia].
    + intros m1 m2 ((<- & H3 & H4) & Hu). cbv zeta. cbn [sim pret rsim fst snd mw_buf mw_used].
      split; [reflexivity|].
      destruct (bf_size (mw_buf m1) <? needed) eqn:E.
      * split; [apply bfit_reserve; exact H4|]. split; [reflexivity|]. cbn [bf_reserve bf_size]. lia.
      * split; [exact H4|]. split; [reflexivity|]. lia.
  - intros (os, m1) ? (<- & H3 & H4 & H5). cbn [fst snd] in *.
    destruct (os_fields_ok ds (mw_buf m1) os H3) as (b' & E & S & F & _); [lia|].
    rewrite E. cbn. unfold wfit. cbn [mw_used mw_buf]. repeat split; auto. lia.
Qed.
Lemma fit_records l : room l -> forall m, mw_used m <= bf_size (mw_buf m) -> bfit (mw_buf m) ->
  sim (rsim (fun x y => x = y /\ mw_used (snd x) <= bf_size (mw_buf (snd x)) /\ bfit (mw_buf (snd x))))
    (mw_records junk m l) (mw_records junk m l).
Proof using All.
  induction 1 as [|(needed, ds) l Hd Hl IH]; intros m H1 H2; cbn [mw_records fst snd] in *.
  - split; [reflexivity|]. split; [exact H1|exact H2].
  - cbv zeta. eapply sim_ebind; [apply fit_record; assumption|]. intros m' ? (<- & H3 & H4).
    eapply sim_ebind; [apply IH; assumption|]. intros (os, m2) ? (<- & H5 & H6). cbn. auto.
Qed.
Lemma write_inside f off size l x : room l -> yields (write_records junk f off size l) x -> x <> Er EUB.
Proof using All.
  intros Hl H.
  assert (S : sim (rsim (fun a b => a = b)) (write_records junk f off size l) (write_records junk f off size l)).
  { unfold write_records. eapply sim_ebind.
    - apply fit_records; [exact Hl| |]; unfold mw_make; cbn [mw_used mw_buf]; [lia|apply bfit_reserve, bfit_new].
    - intros (os, m) ? (<- & H1 & H2). cbn [snd] in *.
      eapply sim_ebind; [apply fit_flush; assumption|]. intros _ _ _. reflexivity. }
  destruct (sim_yields _ _ _ S _ H) as (y & _ & E). apply rsim_eq in E as [_ E]. exact E.
Qed.
End junk.
