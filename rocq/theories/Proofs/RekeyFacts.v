(** rekey(): the buckets built from a data file. *)
From Verif Require Import Model.Bytes Model.Err Model.Field Model.Format Model.IO
  Model.BulkIO Model.Bucket Model.Pool Model.Recover Model.Create Model.Store Model.Rekey
  Proofs.BytesFacts Proofs.FieldFacts Proofs.IOFacts Proofs.PoolFacts Proofs.BucketFacts
  Proofs.BulkFacts Proofs.HashFacts Proofs.Table Proofs.Lookup Proofs.SplitFacts
  Proofs.CommitFacts Proofs.CommitInv Proofs.CommitRun Proofs.HeaderFacts Proofs.StoreInv
  Proofs.OpenFacts Proofs.RekeyBucket.

Opaque loop.

(** Records rekey can read. *)
Definition old_ok (ks : N) (r : drec) : Prop :=
  match r with
  | DRec k v => blen k = ks /\ 0 < blen v /\ blen v < 4294967296
  | SRec es sp => bucket_size (blen es) < 65536
  end.

(** Calls of progress: amounts do not decrease and stay below [X]. *)
Definition calls_ok (total X : N) (t : list (N * N)) : Prop :=
  StronglySorted (fun a b => fst a <= fst b) t /\ Forall (fun c => fst c <= X /\ snd c = total) t.

Lemma sorted_snoc {A} (R : A -> A -> Prop) l x :
  StronglySorted R l -> Forall (fun y => R y x) l -> StronglySorted R (l ++ [x]).
Proof.
  induction 1 as [|y l Hs IH Hf]; intros Hx; cbn [app].
  - repeat constructor.
  - inversion Hx; subst. constructor; auto. apply Forall_app. split; auto.
Qed.

Lemma calls_snoc total X Y t : calls_ok total X t -> X <= Y -> calls_ok total Y (t ++ [(Y, total)]).
Proof.
  intros [Hs Hf] Hxy. split.
  - apply sorted_snoc; auto. eapply Forall_impl; [|exact Hf]. intros c [Hc _]. cbn [fst]. lia.
  - apply Forall_app. split.
    + eapply Forall_impl; [|exact Hf]. intros c [Hc Hd]. split; [lia|auto].
    + constructor; [split; cbn [fst snd]; [lia|auto]|constructor].
Qed.

Lemma calls_le total X Y t : calls_ok total X t -> X <= Y -> calls_ok total Y t.
Proof.
  intros [Hs Hf] Hxy. split; auto. eapply Forall_impl; [|exact Hf]. intros c [Hc Hd]. split; [lia|auto].
Qed.

Lemma ceil_div n c j : 1 <= n -> 1 <= c -> n <= j * c -> (j = 0 \/ (j - 1) * c < n) ->
  (n + c - 1) / c = j.
Proof.
  intros Hn Hc Hj [->|H]; [lia|]. symmetry.
  assert (1 <= j) by nia. assert (E : exists i, j = i + 1) by (exists (j - 1); lia). destruct E as [i ->].
  replace (i + 1 - 1) with i in H by lia.
  apply N.div_unique with (r := n - 1 - i * c); nia.
Qed.

(** Filtering a longer list. *)
Lemma filter_le {A} (f : A -> bool) a b : blen (filter f a) <= blen (filter f (a ++ b)).
Proof. rewrite filter_app, blen_app. lia. Qed.

(** The file only grows while a bucket is spilled. *)
Lemma maybe_spill_grows b bw w w' r c d :
  bw_inv FDat w bw c -> wget w FDat = Some d -> run (maybe_spill b bw) w = (w', r) ->
  exists x, wget w' FDat = Some (d ++ x).
Proof.
  intros Hi Hd. unfold maybe_spill. destruct (bk_full b).
  2: { intros X. injection X as <- _. exists []. rewrite app_nil_r. exact Hd. }
  unfold ebind. rewrite run_bind. set (dd := wr48 0 ++ _). clearbody dd.
  assert (G : exists x r1, run (bw_put bw dd) w = (wset w FDat (Some (d ++ x)), r1)).
  { unfold bw_put, ebind. rewrite run_bind.
    assert (E : exists x r1, run (if bw_cap bw <? blen (bw_buf bw) + blen dd then bw_flush bw else pret bw) w
                 = (wset w FDat (Some (d ++ x)), Ok r1)).
    { destruct (bw_cap bw <? blen (bw_buf bw) + blen dd).
      - destruct (run_bw_flush _ _ _ _ Hi) as (bw' & Hr & _).
        destruct Hi as [_ _ (d1 & Hd1 & _ & Hc)]. rewrite Hd in Hd1. injection Hd1 as <-.
        exists (bw_buf bw), bw'. rewrite Hr, Hc. reflexivity.
      - exists [], bw. rewrite app_nil_r.
        assert (W : wset w FDat (Some d) = w) by (rewrite <- Hd; apply wset_same).
        exact (f_equal (fun x => (x, Ok bw)) (eq_sym W)). }
    destruct E as (x & r1 & E). rewrite E. cbv beta iota zeta. exists x. eexists. reflexivity. }
  destruct G as (x & r1 & G). rewrite G. intros H. exists x.
  destruct r1 as [bw1|er]; [|cbn [run] in H; injection H as <- _; apply wget_wset_same].
  destruct (281474976710655 <? bw_offset bw + 8); cbn [run pret pfail] in H; injection H as <- _; apply wget_wset_same.
Qed.

(** The fields of the new key file header that the passes use. *)
Definition kh_for (kh : key_header) (p : dbp) : Prop :=
  kh_key_size kh = db_key_size p /\ kh_salt kh = db_salt p /\ kh_block_size kh = db_block_size p /\
  kh_buckets kh = db_base p /\ kh_modulus kh = ceil_pow2 (db_base p).

Section Rekey.
Variables (e : env) (p : dbp) (kh : key_header).
Hypothesis Hp : dbp_ok p.
Notation bs := (db_block_size p).
Notation ks := (db_key_size p).
Notation NB := (db_base p).
Notation M := (ceil_pow2 (db_base p)).
Notation hdr := (db_hdr p).
Hypothesis Hkh : kh_for kh p.
Variable recs : list drec.
Hypothesis Hrecs : Forall (old_ok ks) recs.
Notation d0 := (db_hdr p ++ enc_recs recs).
Notation D := (blen (db_hdr p ++ enc_recs recs)).
Notation E := (dents e p recs).
Notation idx en := (bucket_index (en_hash en) NB M).
Notation pkh := (db_kh e p NB).

Lemma NB_pow : pow_ok NB M.
Proof using Hp. destruct Hp as (_ & _ & _ & _ & _ & _ & _ & _ & _ & A & B). apply ceil_pow2_ok; lia. Qed.

(** A reader of the original contents. *)
Definition rd_at (r : breader) (off : N) : Prop :=
  br_inv d0 r /\ br_file r = FDat /\ br_last r = D /\ br_offset r = off.

Lemma rd_prepare r off n w x : rd_at r off -> wget w FDat = Some (d0 ++ x) -> off + n <= D ->
  exists r', run (br_prepare r n) w = (w, Ok (bsub off n d0, r')) /\ rd_at r' (off + n).
Proof using.
  intros (Hi & Hf & Hl & Ho) Hw Hn.
  assert (Hi2 : br_inv (d0 ++ x) r).
  { destruct Hi as [A B C F]. constructor; auto.
    - rewrite blen_app. lia.
    - rewrite bsub_app_l by lia. exact F. }
  destruct (run_br_prepare (d0 ++ x) r w n Hi2) as (r' & Hr & Hi' & Ho' & Hf' & Hl').
  - rewrite Hf. exact Hw.
  - lia.
  - exists r'. rewrite Hr, Ho. rewrite bsub_app_l by lia. split; [reflexivity|].
    unfold rd_at. rewrite Hf', Hl', Ho', Hf, Hl, Ho. split; [|auto].
    destruct Hi' as [A B C F]. rewrite Hl', Hl in *. constructor; auto.
    + rewrite Hl'. lia.
    + rewrite Hl'. lia.
    + rewrite bsub_app_l in F by lia. exact F.
Qed.

Lemma rd_eof r off : rd_at r off -> br_eof r = (D <=? off).
Proof using. intros (_ & _ & Hl & Ho). unfold br_eof. rewrite Hl, Ho. reflexivity. Qed.

(** Entries of a longer list of records. *)
Lemma dents_snoc pre r : dents e p (pre ++ [r]) =
  dents e p pre ++
  match r with
  | DRec k v => [Entry (dat_hdr_size + blen (enc_recs pre)) (blen v) (hash (e_hasher e) (db_salt p) k)]
  | SRec _ _ => []
  end.
Proof using.
  unfold dents. rewrite placed_app, datas_app, map_app. f_equal. destruct r; reflexivity.
Qed.

Lemma dents_app pre rest : exists l, dents e p (pre ++ rest) = dents e p pre ++ l.
Proof using. unfold dents. rewrite placed_app, datas_app, map_app. eauto. Qed.

Section Pass.
Variables (b0 bn : N).

Definition inch (en : entry) : bool := (b0 <=? idx en) && (idx en <? b0 + bn).

(** The buckets of the pass when the records [pre] have been read and the records
    [all] written. *)
Definition slots (all pre : list drec) (TC : list bent) : Prop :=
  blen TC = bn /\
  forall i, i < bn ->
    bucket_inv bs (placed all) (nthN TC i ([], 0)) (filter (mine NB M (b0 + i)) (dents e p pre)).

Lemma slots_fits all pre TC : slots all pre TC -> forall x, In x TC -> blen (kblock bs x) = bs.
Proof using Hp.
  intros [Hl HT] x Hx.
  assert (F : Forall (fits bs) TC).
  { apply (T_fits pkh (p_cap p Hp)). intros n Hn. rewrite Hl in Hn.
    eapply (inv_bent_ok pkh). apply (HT n Hn). }
  rewrite Forall_forall in F. apply F in Hx. unfold fits in Hx. unfold kblock, enc_block.
  rewrite blen_app, blen_enc_bucket, blen_zeros. lia.
Qed.

Lemma slot_read all pre TC i : slots all pre TC -> i < bn ->
  let b := bk_of_blob (bsub (i * bs) bs (flat_map (kblock bs) TC)) in
  let x := nthN TC i ([], 0) in
  bk_rep bs b (fst x) (snd x) /\ bk_blob b = enc_block bs (fst x) (snd x).
Proof using Hp.
  intros HT Hi b x. pose proof (slots_fits _ _ _ HT) as F. destruct HT as [Hl HT].
  assert (Hs : bsub (i * bs) bs (flat_map (kblock bs) TC) = enc_block bs (fst x) (snd x)).
  { apply (flat_map_nthN (kblock bs) bs TC i ([], 0)); [exact F|lia]. }
  unfold b. rewrite Hs. split; [|reflexivity].
  destruct (inv_bent_ok pkh _ _ _ (HT i Hi)) as ((_ & Ho) & Hc & Hsp).
  eapply bk_of_blob_rep; try eassumption; [reflexivity| |apply p_bs; auto].
  fold x in Hc. cbn [db_kh kh_block_size] in Hc. unfold enc_block.
  rewrite blen_app, blen_enc_bucket, blen_zeros.
  pose proof (p_cap p Hp). destruct (cap_bound bs) as [G|G]; unfold bucket_size in *; lia.
Qed.

Lemma bwrite_setN (f : bent -> bytes) l n x :
  (forall y, In y l -> blen (f y) = bs) -> blen (f x) = bs -> n < blen l ->
  bwrite (n * bs) (f x) (flat_map f l) = flat_map f (setN l n x).
Proof using.
  intros Hf Hx Hn. unfold setN.
  assert (El : l = btake n l ++ nthN l n ([], 0) :: bdrop (n + 1) l).
  { rewrite <- (bdrop_nth n l ([], 0) Hn). symmetry. apply btake_bdrop. }
  assert (Hin : forall y, In y (btake n l) -> In y l).
  { intros y Hy. rewrite <- (btake_bdrop n l). apply in_app_iff; auto. }
  rewrite El at 1. rewrite !flat_map_app. cbn [flat_map]. apply bwrite_app3.
  - rewrite (blen_concat_blocks f bs) by (intros; apply Hf; auto). rewrite blen_btake. f_equal. lia.
  - rewrite Hx. symmetry. apply Hf. rewrite El at 2. apply in_app_iff. right. left. reflexivity.
Qed.

Variables (work total : N) (w0 : world).
Hypothesis Hb0 : b0 + bn <= NB.
Notation step := (rekey_step e kh b0 bn work total).

(** A data record. *)
Lemma step_value pre k v rest news TC t dw r w X x :
  recs = pre ++ DRec k v :: rest ->
  wst hdr w0 datbuf D (recs ++ news) w dw -> wget w FDat = Some (d0 ++ x) ->
  rd_at r (blen (hdr ++ enc_recs pre)) ->
  slots (recs ++ news) pre TC ->
  calls_ok total X t -> X <= work + blen (hdr ++ enc_recs pre) ->
  exists news1 w1, spills_only pkh news1 /\
    blen news1 + blen (filter inch (dents e p pre)) <= blen (filter inch (dents e p (pre ++ [DRec k v]))) /\
    ((run (step (t, flat_map (kblock bs) TC, dw, r)) w = (w1, inr (Er EAssert)) /\
      too_big datbuf w1 ((recs ++ news) ++ news1)) \/
     exists t1 TC1 dw1 r1 x1,
       run (step (t, flat_map (kblock bs) TC, dw, r)) w = (w1, inl (t1, flat_map (kblock bs) TC1, dw1, r1)) /\
       wst hdr w0 datbuf D ((recs ++ news) ++ news1) w1 dw1 /\ wget w1 FDat = Some (d0 ++ x1) /\
       rd_at r1 (blen (hdr ++ enc_recs (pre ++ [DRec k v]))) /\
       slots ((recs ++ news) ++ news1) (pre ++ [DRec k v]) TC1 /\
       calls_ok total (work + blen (hdr ++ enc_recs (pre ++ [DRec k v]))) t1).
Proof using Hp Hrecs Hkh Hb0.
  pose proof Hkh as (Kks & Ksalt & Kbs & Kb & Km).
  intros Hrec Hw Hx Hr HT Hc HX.
  assert (Hv : blen k = ks /\ 0 < blen v /\ blen v < 4294967296).
  { rewrite Forall_forall in Hrecs. apply (Hrecs (DRec k v)). rewrite Hrec. apply in_app_iff. right. left. auto. }
  destruct Hv as (Hk & Hv1 & Hv2).
  pose proof (p_hdr p) as Hh.
  set (o := blen (hdr ++ enc_recs pre)) in *.
  assert (Ed : d0 = (hdr ++ enc_recs pre) ++ wr48 (blen v) ++ k ++ v ++ enc_recs rest).
  { rewrite Hrec, enc_recs_app. cbn [enc_recs flat_map enc_rec]. unfold enc_recs. rewrite <- !app_assoc. reflexivity. }
  assert (LD : D = o + 6 + (ks + blen v) + blen (enc_recs rest)).
  { rewrite Ed, !blen_app, blen_wr48. unfold o. rewrite blen_app. lia. }
  assert (Lo : blen (hdr ++ enc_recs (pre ++ [DRec k v])) = o + 6 + (ks + blen v)).
  { unfold o. rewrite enc_recs_app, !blen_app. cbn [enc_recs flat_map enc_rec]. rewrite !blen_app, blen_wr48, blen_nil. lia. }
  assert (Oo : o = dat_hdr_size + blen (enc_recs pre)) by (unfold o; rewrite blen_app, Hh; reflexivity).
  destruct (rd_prepare r o 6 w x Hr Hx) as (r1 & R1 & A1); [lia|].
  destruct (rd_prepare r1 (o + 6) (ks + blen v) w x A1 Hx) as (r2 & R2 & A2); [lia|].
  assert (E6 : bsub o 6 d0 = wr48 (blen v)).
  { rewrite Ed. apply bsub_app_eq; [reflexivity|]. rewrite blen_wr48. reflexivity. }
  assert (EK : bsub (o + 6) (ks + blen v) d0 = k ++ v).
  { rewrite Ed. rewrite (app_assoc (hdr ++ enc_recs pre)). rewrite (app_assoc k).
    apply bsub_app_eq; rewrite !blen_app; [rewrite blen_wr48; unfold o; rewrite blen_app; lia|lia]. }
  pose proof A1 as (_ & _ & _ & O1). pose proof Hr as (_ & _ & _ & O0).
  set (t1 := t ++ [(work + (o + 6), total)]).
  assert (Hc1 : calls_ok total (work + (o + 6 + (ks + blen v))) t1).
  { eapply calls_le; [apply (calls_snoc total X); [exact Hc|lia]|lia]. }
  set (h := hash (e_hasher e) (db_salt p) k).
  set (en := Entry o (blen v) h).
  assert (Ee : dents e p (pre ++ [DRec k v]) = dents e p pre ++ [en]).
  { rewrite dents_snoc. unfold en. rewrite Oo. reflexivity. }
  set (n := bucket_index h NB M).
  assert (Run : run (step (t, flat_map (kblock bs) TC, dw, r)) w =
    run (if (n <? b0) || (b0 + bn <=? n) then Ret (inl (t1, flat_map (kblock bs) TC, dw, r2))
         else
          bind ('(b, dw) <- maybe_spill (bk_of_blob (bsub ((n - b0) * bs) bs (flat_map (kblock bs) TC))) dw ;;
                b <- plift (bk_insert b o (blen v) h) ;;
                pret (b, dw)) (fun a =>
          match a with
          | Er er => Ret (inr (Er er))
          | Ok (b, dw) => Ret (inl (t1, bwrite ((n - b0) * bs) (bk_blob b) (flat_map (kblock bs) TC), dw, r2))
          end)) w).
  { unfold rekey_step. rewrite (rd_eof _ _ Hr). replace (D <=? o) with false by lia.
    rewrite O0. rewrite run_bind, R1, E6. cbv beta iota zeta. rewrite rd_size48_wr48 by lia.
    replace (0 <? blen v) with true by lia.
    rewrite Kks. rewrite run_bind, R2, EK. cbv beta iota zeta.
    rewrite btake_app_eq by lia. rewrite Ksalt, Kb, Km, Kbs, O1. reflexivity. }
  rewrite Run. clear Run. unfold inch. rewrite Ee, filter_app, blen_app. cbn [filter]. change (idx en) with n.
  destruct ((n <? b0) || (b0 + bn <=? n)) eqn:En.
  - exists [], w. split; [constructor|]. split; [rewrite blen_nil; lia|]. right.
    exists t1, TC, dw, r2, x. rewrite !app_nil_r, Lo. replace (o + 6 + (ks + blen v)) with (o + 6 + (ks + blen v)) by lia.
    split; [reflexivity|]. split; [exact Hw|]. split; [exact Hx|]. split; [exact A2|].
    split; [|exact Hc1]. destruct HT as [Hl HT]. split; [exact Hl|]. intros i Hi.
    rewrite Ee, filter_app. cbn [filter]. unfold mine at 2. change (idx en) with n.
    replace (n =? b0 + i) with false by lia. rewrite app_nil_r. auto.
  - replace ((b0 <=? n) && (n <? b0 + bn)) with true by lia.
    assert (Hi : n - b0 < bn) by lia.
    destruct (slot_read _ _ _ _ HT Hi) as [Rb Bb]. cbv zeta in Rb, Bb.
    set (b := bk_of_blob (bsub ((n - b0) * bs) bs (flat_map (kblock bs) TC))) in *.
    set (y := nthN TC (n - b0) ([], 0)) in *.
    pose proof (proj2 HT _ Hi) as Hinv. replace (b0 + (n - b0)) with n in Hinv by lia.
    assert (Hinv' : bucket_inv bs (placed (recs ++ news)) (fst y, snd y) (filter (mine NB M n) (dents e p pre))).
    { fold y in Hinv. destruct y; exact Hinv. }
    destruct (add_run pkh (p_cap p Hp) (p_bs p Hp) eq_refl hdr w0 datbuf D Hh datbuf_ok (fun b dw => pret (b, dw))
      (recs ++ news) w dw b (fst y) (snd y) _ en Hw Rb Hinv') as (news1 & w1 & Hs1 & Hn1 & Hpost).
    { exact Hv2. }
    { apply hash_lt. }
    { right. cbn [en en_off]. rewrite Oo, Hrec, !enc_recs_app, !blen_app. lia. }
    cbn [en en_off en_size en_hash] in Hpost.
    exists news1, w1. split; [exact Hs1|]. split; [change (blen [en]) with 1; lia|].
    destruct Hpost as [[Hrun Hbig]|(b' & dw1 & es' & sp' & Hrun & Hw1 & Rb' & Hinv1 & Hen)].
    + left. split; [|exact Hbig]. rewrite run_bind, Hrun. reflexivity.
    + right. cbn [run pret] in Hrun.
      pose proof (block_zero _ _ _ _ Rb Bb) as Z.
      pose proof (add_zero _ _ _ _ _ _ _ _ _ Z Hrun) as Z1.
      pose proof (zero_block _ _ _ _ Rb' Z1) as Bb'.
      assert (Hgrow : exists x1, wget w1 FDat = Some (d0 ++ x1)).
      { unfold ebind in Hrun. rewrite run_bind in Hrun.
        destruct (run (maybe_spill b dw) w) as [w2 r3] eqn:Em.
        destruct (maybe_spill_grows _ _ _ _ _ _ _ (proj1 (proj2 (proj1 Hw))) Hx Em) as (x1 & X1).
        assert (w2 = w1).
        { destruct r3 as [[b3 dw3]|er]; [|discriminate]. unfold plift in Hrun. cbn [bind run] in Hrun.
          destruct (bk_insert b3 o (blen v) h); [|discriminate]. cbn [run pret] in Hrun. congruence. }
        subst w2. exists (x ++ x1). rewrite X1, <- app_assoc. reflexivity. }
      destruct Hgrow as (x1 & Hx1).
      exists t1, (setN TC (n - b0) (es', sp')), dw1, r2, x1.
      pose proof (slots_fits _ _ _ HT) as Hfit. destruct HT as [Hl HT].
      split.
      { rewrite run_bind, Hrun. cbv beta iota. cbn [run]. rewrite Bb'.
        change (enc_block (kh_block_size pkh) es' sp') with (kblock bs (es', sp')).
        rewrite (bwrite_setN (kblock bs)); [reflexivity|exact Hfit| |lia].
        unfold kblock, enc_block. cbn [fst snd]. rewrite blen_app, blen_enc_bucket, blen_zeros.
        pose proof (rep_size_le _ _ _ _ Rb') as Q. cbn [db_kh kh_block_size] in Q. lia. }
      split; [exact Hw1|]. split; [exact Hx1|]. split; [rewrite Lo; exact A2|].
      split; [|rewrite Lo; exact Hc1].
      split; [rewrite blen_setN; lia|]. intros i Hi'. rewrite Ee, filter_app. cbn [filter].
      unfold mine at 2. change (idx en) with n.
      destruct (N.eq_dec i (n - b0)) as [->|Hne].
      * rewrite nthN_setN_same by lia. replace (b0 + (n - b0)) with n by lia. rewrite N.eqb_refl.
        eapply bucket_inv_perm; [apply Permutation_cons_append|exact Hinv1].
      * rewrite nthN_setN_other by lia. replace (n =? b0 + i) with false by lia. rewrite app_nil_r.
        eapply bucket_inv_incl; [apply placed_incl|]. auto.
Qed.

(** A spill record is skipped. *)
Lemma step_spill pre es sp rest TC t dw r w X x :
  recs = pre ++ SRec es sp :: rest -> wget w FDat = Some (d0 ++ x) ->
  rd_at r (blen (hdr ++ enc_recs pre)) ->
  calls_ok total X t -> X <= work + blen (hdr ++ enc_recs pre) ->
  exists t1 r1,
    run (step (t, flat_map (kblock bs) TC, dw, r)) w = (w, inl (t1, flat_map (kblock bs) TC, dw, r1)) /\
    rd_at r1 (blen (hdr ++ enc_recs (pre ++ [SRec es sp]))) /\
    calls_ok total (work + blen (hdr ++ enc_recs (pre ++ [SRec es sp]))) t1.
Proof using Hrecs Hb0.
  intros Hrec Hx Hr Hc HX.
  assert (Hv : bucket_size (blen es) < 65536).
  { rewrite Forall_forall in Hrecs. apply (Hrecs (SRec es sp)). rewrite Hrec. apply in_app_iff. right. left. auto. }
  set (o := blen (hdr ++ enc_recs pre)) in *. set (m := bucket_size (blen es)) in *.
  assert (Lm : blen (enc_bucket es sp) = m) by apply blen_enc_bucket.
  assert (Ed : d0 = (hdr ++ enc_recs pre) ++ wr48 0 ++ wr16 m ++ enc_bucket es sp ++ enc_recs rest).
  { rewrite Hrec, enc_recs_app. cbn [enc_recs flat_map enc_rec]. unfold enc_recs, m. rewrite <- !app_assoc. reflexivity. }
  assert (LD : D = o + 6 + 2 + m + blen (enc_recs rest)).
  { rewrite Ed, !blen_app, blen_wr48, blen_wr16. unfold o. rewrite blen_app. lia. }
  assert (Lo : blen (hdr ++ enc_recs (pre ++ [SRec es sp])) = o + 6 + 2 + m).
  { unfold o. rewrite enc_recs_app, !blen_app. cbn [enc_recs flat_map enc_rec]. rewrite !blen_app, blen_wr48, blen_wr16, blen_nil. lia. }
  destruct (rd_prepare r o 6 w x Hr Hx) as (r1 & R1 & A1); [lia|].
  destruct (rd_prepare r1 (o + 6) 2 w x A1 Hx) as (r2 & R2 & A2); [lia|].
  destruct (rd_prepare r2 (o + 6 + 2) m w x A2 Hx) as (r3 & R3 & A3); [lia|].
  assert (E6 : bsub o 6 d0 = wr48 0).
  { rewrite Ed. apply bsub_app_eq; [reflexivity|]. rewrite blen_wr48. reflexivity. }
  assert (E2 : bsub (o + 6) 2 d0 = wr16 m).
  { rewrite Ed. rewrite (app_assoc (hdr ++ enc_recs pre)).
    apply bsub_app_eq; rewrite ?blen_app, ?blen_wr48, ?blen_wr16; [unfold o; rewrite blen_app; lia|lia]. }
  pose proof A1 as (_ & _ & _ & O1). pose proof Hr as (_ & _ & _ & O0).
  exists (t ++ [(work + (o + 6), total)]), r3. split; [|split].
  - unfold rekey_step. rewrite (rd_eof _ _ Hr). replace (D <=? o) with false by lia.
    rewrite run_bind, R1, E6. cbv beta iota zeta. rewrite rd_size48_wr48 by lia.
    change (0 <? 0) with false. cbv iota.
    rewrite run_bind, R2, E2. cbv beta iota zeta. rewrite rd_wr16 by lia.
    rewrite run_bind, R3. cbv beta iota zeta. rewrite O1. reflexivity.
  - rewrite Lo. exact A3.
  - rewrite Lo. eapply calls_le; [apply (calls_snoc total X); [exact Hc|lia]|lia].
Qed.

(** The whole data file. *)
Lemma pass_ok rest : forall pre news TC t dw r w X x,
  recs = pre ++ rest ->
  wst hdr w0 datbuf D (recs ++ news) w dw -> wget w FDat = Some (d0 ++ x) ->
  rd_at r (blen (hdr ++ enc_recs pre)) ->
  slots (recs ++ news) pre TC ->
  calls_ok total X t -> X <= work + blen (hdr ++ enc_recs pre) ->
  exists n news1 w1 res, (n <= length rest + 1)%nat /\
    loops step n (t, flat_map (kblock bs) TC, dw, r) w w1 res /\
    spills_only pkh news1 /\
    blen news1 + blen (filter inch (dents e p pre)) <= blen (filter inch E) /\
    match res with
    | Er er => er = EAssert /\ too_big datbuf w1 ((recs ++ news) ++ news1)
    | Ok (t1, buf1, dw1) => exists TC1 x1, buf1 = flat_map (kblock bs) TC1 /\
        wst hdr w0 datbuf D ((recs ++ news) ++ news1) w1 dw1 /\ wget w1 FDat = Some (d0 ++ x1) /\
        slots ((recs ++ news) ++ news1) recs TC1 /\ calls_ok total (work + D) t1
    end.
Proof using Hp Hrecs Hkh Hb0.
  induction rest as [|rc rest IH]; intros pre news TC t dw r w X x Hrec Hw Hx Hr HT Hc HX.
  - rewrite app_nil_r in Hrec. subst pre.
    exists 1%nat, [], w, (Ok (t, flat_map (kblock bs) TC, dw)). split; [cbn [length]; lia|]. split.
    { constructor. unfold rekey_step. rewrite (rd_eof _ _ Hr). rewrite N.leb_refl. reflexivity. }
    split; [constructor|]. split; [rewrite blen_nil; lia|].
    exists TC, x. rewrite app_nil_r. split; [reflexivity|]. split; [exact Hw|]. split; [exact Hx|].
    split; [exact HT|]. eapply calls_le; eauto.
  - assert (Hrec2 : recs = (pre ++ [rc]) ++ rest) by (rewrite <- app_assoc; exact Hrec).
    destruct rc as [k v|es sp].
    + destruct (step_value pre k v rest news TC t dw r w X x Hrec Hw Hx Hr HT Hc HX)
        as (news1 & w1 & Hs1 & Hn1 & [[Hrun Hbig]|(t1 & TC1 & dw1 & r1 & x1 & Hrun & Hw1 & Hx1 & Hr1 & HT1 & Hc1)]).
      * exists 1%nat, news1, w1, (Er EAssert). split; [cbn [length]; lia|]. split; [constructor; exact Hrun|].
        split; [exact Hs1|]. split; [|auto].
        eapply N.le_trans; [exact Hn1|]. destruct (dents_app (pre ++ [DRec k v]) rest) as (l & El).
        rewrite <- Hrec2 in El. rewrite El. apply filter_le.
      * rewrite <- app_assoc in Hw1, HT1.
        destruct (IH (pre ++ [DRec k v]) (news ++ news1) TC1 t1 dw1 r1 w1 _ x1 Hrec2 Hw1 Hx1 Hr1 HT1 Hc1 (N.le_refl _))
          as (n & news2 & w2 & res & Hn & Hl & Hs2 & Hn2 & Hres).
        exists (Datatypes.S n), (news1 ++ news2), w2, res. split; [cbn [length]; lia|].
        split; [eapply loops_more; [exact Hrun|exact Hl]|].
        split; [apply spills_only_app; auto|]. split; [rewrite blen_app; lia|].
        rewrite !app_assoc in *. exact Hres.
    + destruct (step_spill pre es sp rest TC t dw r w X x Hrec Hx Hr Hc HX) as (t1 & r1 & Hrun & Hr1 & Hc1).
      assert (Ed : dents e p (pre ++ [SRec es sp]) = dents e p pre) by (rewrite dents_snoc, app_nil_r; auto).
      assert (HT1 : slots (recs ++ news) (pre ++ [SRec es sp]) TC).
      { destruct HT as [Hl HT]. split; [exact Hl|]. rewrite Ed. exact HT. }
      destruct (IH (pre ++ [SRec es sp]) news TC t1 dw r1 w _ x Hrec2 Hw Hx Hr1 HT1 Hc1 (N.le_refl _))
          as (n & news2 & w2 & res & Hn & Hl & Hs2 & Hn2 & Hres).
      rewrite Ed in Hn2.
      exists (Datatypes.S n), news2, w2, res. split; [cbn [length]; lia|].
      split; [eapply loops_more; [exact Hrun|exact Hl]|]. auto.
Qed.
End Pass.

Lemma recs_count l : 6 * blen l <= blen (enc_recs l).
Proof using.
  induction l as [|r l IH]; [apply N.le_refl|]. rewrite blen_cons. unfold enc_recs in *. cbn [flat_map].
  rewrite blen_app. pose proof (enc_rec_len r). lia.
Qed.

(** ** All passes *)
Definition later (b : N) (en : entry) : bool := b <=? idx en.

(** The buckets finished so far. *)
Definition done_ok (all : list drec) (T : list bent) : Prop :=
  forall n, n < blen T -> bucket_inv bs (placed all) (nthN T n ([], 0)) (filter (mine NB M n) E).

Lemma zeros_blocks n : zeros (n * bs) = flat_map (kblock bs) (repeat ([], 0) (N.to_nat n)).
Proof using Hp.
  pose proof (block_min bs (p_cap p Hp)) as Hb. unfold key_hdr_size in Hb.
  assert (Z : kblock bs ([], 0) = zeros bs).
  { unfold kblock, enc_block, enc_bucket. cbn [fst snd enc_entries flat_map]. rewrite app_nil_r.
    change (wr16 (blen [])) with (zeros 2). change (wr48 0) with (zeros 6). rewrite !zeros_app. f_equal.
    change (bucket_size (blen [])) with 8. lia. }
  assert (G : forall m, zeros (N.of_nat m * bs) = flat_map (kblock bs) (repeat ([], 0) m)).
  { induction m as [|m IH]; [reflexivity|]. cbn [repeat flat_map]. rewrite <- IH, Z, zeros_app. f_equal. lia. }
  rewrite <- G. f_equal. lia.
Qed.

Lemma nthN_repeat {A} (x : A) n i d : nthN (repeat x n) i d = x \/ nthN (repeat x n) i d = d.
Proof using.
  unfold nthN. destruct (nth_in_or_default (N.to_nat i) (repeat x n) d) as [X|X]; [|auto].
  left. eapply repeat_spec; eauto.
Qed.

Lemma empty_slots b0 bn all : slots b0 bn all [] (repeat ([], 0) (N.to_nat bn)).
Proof using.
  split; [unfold blen; rewrite repeat_length; lia|]. intros i _.
  change (filter (mine NB M (b0 + i)) (dents e p [])) with (@nil entry).
  match goal with |- bucket_inv _ _ ?y _ => assert (Y : y = ([], 0)); [|rewrite Y] end.
  - destruct (nthN_repeat (@nil entry, 0) (N.to_nat bn) i ([], 0)) as [Y|Y]; exact Y.
  - constructor; cbn [fst snd]; [split; constructor|rewrite blen_nil; lia|congruence|].
    exists []. split; [constructor|constructor].
Qed.

Variables (chunk total : N).
Hypothesis Hchunk : 1 <= chunk.
Hypothesis HD : D < 18446744073709551616.

(** One pass. *)
Lemma one_pass b0 T news t dw w X x K :
  b0 < NB -> blen T = b0 ->
  wst hdr w datbuf D (recs ++ news) w dw -> wget w FDat = Some (d0 ++ x) -> wget w FKey = Some K ->
  K = db_kb e p ++ flat_map (kblock bs) T ++ zeros ((NB - b0) * bs) ->
  done_ok (recs ++ news) T -> spills_only pkh news ->
  calls_ok total X t -> X <= b0 / chunk * D ->
  let b1 := N.min (b0 + chunk) NB in
  exists news1 w1, spills_only pkh news1 /\
    blen news1 + blen (filter (later b1) E) <= blen (filter (later b0) E) /\
    ((run (rekey_pass e kh D chunk total (b0, t, dw)) w = (w1, inr (Er EAssert)) /\
      too_big datbuf w1 ((recs ++ news) ++ news1)) \/
     exists t1 T1 dw1 x1 K1,
       run (rekey_pass e kh D chunk total (b0, t, dw)) w = (w1, inl (b0 + chunk, t1, dw1)) /\
       blen T1 = b1 /\
       wst hdr w1 datbuf D ((recs ++ news) ++ news1) w1 dw1 /\ wget w1 FDat = Some (d0 ++ x1) /\
       wget w1 FKey = Some K1 /\ wget w1 FLog = wget w FLog /\
       K1 = db_kb e p ++ flat_map (kblock bs) T1 ++ zeros ((NB - b1) * bs) /\
       done_ok ((recs ++ news) ++ news1) T1 /\
       calls_ok total ((b0 / chunk + 1) * D) t1).
Proof using Hp Hrecs Hkh Hchunk HD.
  intros Hb HTl Hw Hx HK EK HT Hs Hc HX b1.
  pose proof Hkh as (Kks & Ksalt & Kbs & Kb & Km).
  pose proof (p_hdr p) as Hh. set (bn := b1 - b0).
  assert (Hbn : b0 + bn <= NB /\ 1 <= bn /\ b1 = b0 + bn) by (unfold bn, b1; lia).
  destruct Hbn as (Hbn & Hbn1 & Hb1).
  set (r := br_make FDat dat_hdr_size D rekey_read_size).
  assert (Hr : rd_at r (blen (hdr ++ enc_recs []))).
  { unfold rd_at, r. rewrite br_make_offset. cbn [br_make br_file br_last enc_recs flat_map]. rewrite app_nil_r, Hh.
    split; [|auto]. apply br_make_inv; [rewrite blen_app, Hh; lia|lia]. }
  destruct (pass_ok b0 bn (b0 / chunk * D) total w Hbn recs [] news _ t dw r w X x eq_refl Hw Hx Hr
    (empty_slots b0 bn (recs ++ news)) Hc) as (n & news1 & w1 & res & Hn & Hl & Hs1 & Hn1 & Hres); [lia|].
  rewrite <- zeros_blocks in Hl.
  assert (Hlr : run (loop (rekey_step e kh b0 bn (b0 / chunk * D) total) (t, zeros (bn * bs), dw, r)) w = (w1, res)).
  { apply (loop_run _ _ _ _ _ _ Hl). pose proof (recs_count recs) as Q. rewrite blen_app in HD.
    unfold blen in Q at 1. lia. }
  assert (Hcnt : blen news1 + blen (filter (later b1) E) <= blen (filter (later b0) E)).
  { change (filter (inch b0 bn) (dents e p [])) with (@nil entry) in Hn1. rewrite blen_nil in Hn1.
    assert (Q : forall l, blen (filter (inch b0 bn) l) + blen (filter (later b1) l) = blen (filter (later b0) l)).
    { clear - Hb1. induction l as [|en l IH]; [reflexivity|]. cbn [filter]. unfold inch, later in *.
      destruct (N.leb_spec b0 (idx en)), (N.ltb_spec (idx en) (b0 + bn)), (N.leb_spec b1 (idx en));
        cbn [andb]; rewrite ?blen_cons; try lia. }
    specialize (Q E). lia. }
  assert (Run : run (rekey_pass e kh D chunk total (b0, t, dw)) w =
    match res with
    | Er er => (w1, inr (Er er))
    | Ok (t, buf, dw) => run (bind (p_write FKey false ((b0 + 1) * bs) buf) (fun a =>
        match a with
        | Er er => Ret (inr (Er er))
        | Ok _ => Ret (inl (b0 + chunk, t, dw))
        end)) w1
    end).
  { unfold rekey_pass. rewrite Kb, Kbs. replace (NB <=? b0) with false by lia.
    cbv zeta. fold b1. fold bn. fold r. rewrite run_bind, Hlr. destruct res as [[[t1 buf1] dw1]|er]; reflexivity. }
  exists news1. destruct res as [[[t1 buf1] dw1]|er].
  - destruct Hres as (TC1 & x1 & -> & Hw1 & Hx1 & HT1 & Hc1).
    pose proof (slots_fits b0 bn _ _ _ HT1) as Hfit. destruct HT1 as [Hl1 HT1].
    assert (Hk1 : wget w1 FKey = Some K /\ wget w1 FLog = wget w FLog).
    { destruct Hw1 as [[(d & ->) _] _]. rewrite !wget_wset_other by discriminate. auto. }
    destruct Hk1 as [Hk1 Hk2].
    set (K1 := bwrite ((b0 + 1) * bs) (flat_map (kblock bs) TC1) K).
    exists (wset w1 FKey (Some K1)). split; [exact Hs1|]. split; [exact Hcnt|]. right.
    assert (HfT : Forall (fits bs) T).
    { apply (T_fits pkh (p_cap p Hp)). intros m Hm. eapply (inv_bent_ok pkh). apply (HT m Hm). }
    assert (HlT : blen (flat_map (kblock bs) T) = b0 * bs).
    { rewrite <- HTl. apply blen_concat_blocks. intros y Hy. rewrite Forall_forall in HfT. apply HfT in Hy.
      unfold fits in Hy. unfold kblock, enc_block. rewrite blen_app, blen_enc_bucket, blen_zeros. lia. }
    assert (Hlc : blen (flat_map (kblock bs) TC1) = bn * bs).
    { rewrite <- Hl1. apply blen_concat_blocks. exact Hfit. }
    exists t1, (T ++ TC1), dw1, x1, K1. rewrite Run.
    split.
    { rewrite run_bind. erewrite run_write by exact Hk1. reflexivity. }
    split; [rewrite blen_app; lia|]. split.
    { destruct Hw1 as [[_ [Hi Hsm]] Hlow]. split; [|exact Hlow]. split; [|split; [|exact Hsm]].
      - destruct Hi as [_ _ (d & Hd & _)]. exists d. clear - Hd. destruct w1 as [a b c]. change (a = Some d) in Hd. rewrite Hd. reflexivity.
      - destruct Hi as [A1 A2 (d & A3 & A4 & A5)]. constructor; auto. exists d.
        rewrite wget_wset_other by discriminate. auto. }
    split; [rewrite wget_wset_other by discriminate; exact Hx1|].
    split; [apply wget_wset_same|]. split; [rewrite wget_wset_other by discriminate; exact Hk2|].
    split.
    { unfold K1. rewrite EK, flat_map_app.
      replace (zeros ((NB - b0) * bs)) with (zeros (bn * bs) ++ zeros ((NB - b1) * bs)).
      - rewrite app_assoc. rewrite bwrite_app3.
        + rewrite <- !app_assoc. reflexivity.
        + rewrite blen_app, (p_kb e p Hp), HlT. lia.
        + rewrite Hlc, blen_zeros. reflexivity.
      - rewrite zeros_app. f_equal. nia. }
    split.
    { intros m Hm. rewrite blen_app in Hm. destruct (N.lt_ge_cases m b0) as [L|L].
      - rewrite nthN_app_l by lia. eapply bucket_inv_incl; [apply placed_incl|]. apply HT. lia.
      - rewrite nthN_app_r by lia. rewrite HTl. specialize (HT1 (m - b0)).
        replace (b0 + (m - b0)) with m in HT1 by lia. apply HT1. lia. }
    replace ((b0 / chunk + 1) * D) with (b0 / chunk * D + D) by lia. exact Hc1.
  - destruct Hres as [-> Hbig]. exists w1. split; [exact Hs1|]. split; [exact Hcnt|]. left. auto.
Qed.

Lemma all_passes m : forall j b0 T news t dw w X x K,
  (N.to_nat (NB - b0) <= m)%nat -> b0 = j * chunk -> (j = 0 \/ (j - 1) * chunk < NB) ->
  blen T = N.min b0 NB ->
  wst hdr w datbuf D (recs ++ news) w dw -> wget w FDat = Some (d0 ++ x) -> wget w FKey = Some K ->
  K = db_kb e p ++ flat_map (kblock bs) T ++ zeros ((NB - b0) * bs) ->
  done_ok (recs ++ news) T -> spills_only pkh news ->
  calls_ok total X t -> X <= j * D ->
  exists n news1 w1 res, (n <= m + 1)%nat /\
    loops (rekey_pass e kh D chunk total) n (b0, t, dw) w w1 res /\
    spills_only pkh news1 /\ blen news1 <= blen (filter (later b0) E) /\
    match res with
    | Er er => er = EAssert /\ too_big datbuf w1 ((recs ++ news) ++ news1)
    | Ok (t1, dw1) => exists T1 x1,
        blen T1 = NB /\ wst hdr w1 datbuf D ((recs ++ news) ++ news1) w1 dw1 /\
        wget w1 FDat = Some (d0 ++ x1) /\
        wget w1 FKey = Some (db_kb e p ++ flat_map (kblock bs) T1) /\
        wget w1 FLog = wget w FLog /\
        done_ok ((recs ++ news) ++ news1) T1 /\
        calls_ok total ((NB + chunk - 1) / chunk * D) t1
    end.
Proof using Hp Hrecs Hkh Hchunk HD.
  induction m as [|m IH]; intros j b0 T news t dw w X x K Hm Hj Hj1 HTl Hw Hx HK EK HT Hs Hc HX.
  all: destruct (N.lt_ge_cases b0 NB) as [L|L].
  2, 4: exists 1%nat, [], w, (Ok (t, dw)).
  2, 3: split; [lia|]; split;
    [apply loops_done; unfold rekey_pass; pose proof Hkh as (_ & _ & _ & Kb & _); rewrite Kb;
     replace (NB <=? b0) with true by lia; reflexivity|];
    split; [apply Forall_nil|]; split; [rewrite blen_nil; lia|];
    exists T, x; rewrite !app_nil_r; split; [lia|]; split; [exact Hw|]; split; [exact Hx|];
    split; [rewrite HK, EK; replace (NB - b0) with 0 by lia; rewrite N.mul_0_l;
            change (zeros 0) with (@nil N); rewrite app_nil_r; reflexivity|];
    split; [reflexivity|]; split; [exact HT|];
    (eapply calls_le; [exact Hc|]);
    (rewrite (ceil_div NB chunk j); [lia|apply Hp|exact Hchunk|lia|exact Hj1]).
  - exfalso. lia.
  - assert (Ej : b0 / chunk = j) by (rewrite Hj; apply N.div_mul; lia).
    destruct (one_pass b0 T news t dw w X x K) as (news1 & w1 & Hs1 & Hn1 & Hpost); auto; [lia|lia|].
    destruct Hpost as [[Hrun Hbig]|(t1 & T1 & dw1 & x1 & K1 & Hrun & Hl1 & Hw1 & Hx1 & HK1 & Hg1 & EK1 & HT1 & Hc1)].
    + exists 1%nat, news1, w1, (Er EAssert). split; [lia|]. split; [constructor; exact Hrun|].
      split; [exact Hs1|]. split; [lia|]. auto.
    + rewrite <- app_assoc in Hw1, HT1.
      assert (Ev : (NB - N.min (b0 + chunk) NB) = NB - (b0 + chunk)) by lia. rewrite Ev in EK1.
      destruct (IH (j + 1) (b0 + chunk) T1 (news ++ news1) t1 dw1 w1 ((b0 / chunk + 1) * D) x1 K1)
        as (n & news2 & w2 & res & Hn & Hl & Hs2 & Hn2 & Hres);
        [lia|lia|right; replace (j + 1 - 1) with j by lia; lia|exact Hl1|exact Hw1|exact Hx1|exact HK1
        |exact EK1|exact HT1|apply spills_only_app; auto|exact Hc1|rewrite Ej; lia|].
      exists (Datatypes.S n), (news1 ++ news2), w2, res. split; [lia|].
      split; [eapply loops_more; [exact Hrun|exact Hl]|].
      split; [apply spills_only_app; auto|]. split.
      { rewrite blen_app.
        assert (Q : blen (filter (later (N.min (b0 + chunk) NB)) E) = blen (filter (later (b0 + chunk)) E)).
        { f_equal. apply filter_ext. intros en. unfold later.
          pose proof (bucket_index_lt (en_hash en) NB M NB_pow) as Q. lia. }
        lia. }
      rewrite !app_assoc in *. destruct res as [[t2 dw2]|er]; [|exact Hres].
      destruct Hres as (T2 & x2 & B1 & B2 & B3 & B4 & B5 & B6 & B7). exists T2, x2.
      rewrite Hg1 in B5. repeat (split; [assumption|]). assumption.
Qed.
End Rekey.
