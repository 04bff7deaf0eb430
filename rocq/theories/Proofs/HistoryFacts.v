(** Histories of calls refine the specification. *)
From Verif Require Import Model.Bytes Model.Err Model.Field Model.Format Model.IO
  Model.BulkIO Model.Bucket Model.Pool Model.Recover Model.Create Model.Store Spec Model.History
  Proofs.BytesFacts Proofs.FieldFacts Proofs.IOFacts Proofs.PoolFacts Proofs.BucketFacts
  Proofs.BulkFacts Proofs.HashFacts Proofs.Table Proofs.Lookup Proofs.SplitFacts
  Proofs.CommitFacts Proofs.CommitInv Proofs.CommitRun Proofs.HeaderFacts Proofs.StoreInv
  Proofs.OpenFacts.

(** Bytes of pending inserts. *)
Fixpoint pbytes (l : list pelem) : N :=
  match l with [] => 0 | x :: l' => 6 + blen (pe_key x) + blen (pe_data x) + pbytes l' end.

Lemma pbytes_perm l l' : Permutation l l' -> pbytes l = pbytes l'.
Proof. induction 1; simpl; lia. Qed.

Lemma blen_recs l : blen (enc_recs (map rec_of l)) = pbytes l.
Proof.
  induction l as [|x l IH]; [reflexivity|]. unfold enc_recs in *. cbn [map flat_map pbytes].
  rewrite blen_app, IH. cbn [rec_of enc_rec]. rewrite !blen_app, blen_wr48. lia.
Qed.

Lemma blen_spills kh news :
  kh_block_size kh <= 65535 -> 1 <= bucket_capacity (kh_block_size kh) ->
  spills_only kh news -> blen (enc_recs news) <= 65544 * blen news.
Proof.
  intros Hb Hc. induction 1 as [|r l (Hr & es & sp & ->) Hl IH]; [reflexivity|].
  unfold enc_recs in *. cbn [flat_map]. rewrite blen_app, blen_cons. cbn [enc_rec].
  rewrite !blen_app, blen_wr48, blen_wr16, blen_enc_bucket.
  destruct Hr as (_ & Hn & _). rewrite Hn. destruct (cap_bound (kh_block_size kh)); lia.
Qed.

Lemma too_big_near w recs : too_big datbuf w recs -> near_limit w.
Proof.
  intros [_ (d & n & Hd & Hn & Hb)]. exists d. split; [exact Hd|]. unfold datbuf in Hn.
  change (2 ^ 48 - 2 ^ 33) with 281466386776064. lia.
Qed.

Section History.
Variables (e : env) (p : dbp).
Hypothesis Hp : dbp_ok p.
Hypothesis Hit : iter_ok e.
Notation bs := (db_block_size p).
Notation ks := (db_key_size p).
Notation sinv := (sinv e p).

(** [i] inserts carrying [b] bytes so far. *)
Definition szinv (recs : list drec) (s : store) (i b : N) : Prop :=
  blen (kvs recs) + blen (pl_map (st_p1 s)) <= i /\
  blen (enc_recs recs) + pbytes (pl_map (st_p1 s)) <=
    b + 65544 * (blen (kvs recs) * blen (kvs recs)).

Definition too_long (i b : N) : Prop := 281474976710648 <= 92 + b + 65544 * (i * i).

Lemma sq_mono a b : a <= b -> a * a <= b * b.
Proof. intros. apply N.mul_le_mono; auto. Qed.

Lemma flush_ok recs T s w i b :
  sinv recs T s w -> szinv recs s i b ->
  (exists x T' s' w', run (store_flush e s) w = (w', s') /\ sinv (recs ++ x) T' s' w' /\
     pl_map (st_p1 s') = [] /\ szinv (recs ++ x) s' i b /\
     kvs (recs ++ x) = kvs recs ++ map (fun y => (pe_key y, pe_data y)) (pl_map (st_p1 s)) /\
     (forall k, abs (recs ++ x) s' k = abs recs s k) /\
     (pl_map (st_p1 s) = [] -> w' = w /\ s' = s /\ x = [] /\ T' = T) /\
     st_frac s' + db_thresh p * blen T' =
       st_frac s + 65536 * blen (pl_map (st_p1 s)) + db_thresh p * blen T) \/
  (too_long i b /\ exists w' s', run (store_flush e s) w = (w', s') /\ st_ec s' = Some EAssert /\
     near_limit w').
Proof.
  intros Hi [Hz1 Hz2]. unfold store_flush, pool_is_empty.
  destruct (pl_map (st_p1 s)) as [|x0 l0] eqn:El.
  - left. exists [], T, s, w. rewrite app_nil_r. simpl map. rewrite app_nil_r. change (blen (@nil pelem)) with 0. splits; auto.
    + unfold szinv. rewrite El. auto.
    + lia.
  - rewrite (si_ec _ _ _ _ _ _ Hi).
    destruct (commit_data_run e p Hp recs T s w Hi) as (news & Hs & Hn & Hcase).
    set (l := pl_map (st_p1 s)) in *. rewrite <- El in *.
    set (recs' := recs ++ map rec_of l ++ news).
    assert (Hbs : kh_block_size (st_kh s) <= 65535 /\ 1 <= bucket_capacity (kh_block_size (st_kh s))).
    { destruct (si_kh _ _ _ _ _ _ Hi) as (B & ->). cbn [db_kh kh_block_size].
      split; [apply p_bs; auto|apply p_cap; auto]. }
    pose proof (blen_spills _ _ (proj1 Hbs) (proj2 Hbs) Hs) as Hsp.
    assert (Hkv : kvs recs' = kvs recs ++ map (fun y => (pe_key y, pe_data y)) l).
    { unfold recs'. rewrite !kvs_app, kvs_recs, (kvs_spills _ _ Hs), app_nil_r. auto. }
    assert (Hc' : blen (kvs recs') = blen (kvs recs) + blen l) by (rewrite Hkv, blen_app, blen_map; auto).
    assert (Hz : blen (enc_recs recs') <= b + 65544 * (blen (kvs recs') * blen (kvs recs'))).
    { unfold recs' at 1. rewrite !enc_recs_app, !blen_app, blen_recs. rewrite Hc'.
      clear - Hz2 Hn Hsp. set (c := blen (kvs recs)) in *. set (a := blen l) in *.
      set (nn := blen news) in *. fold l in Hz2. nia. }
    destruct Hcase as [(st & T' & Hc)|(w' & Hbig & Hr & _)].
    + left. destruct (commit_ok e p Hp Hit _ _ _ _ _ _ _ Hi Hc) as (Hr & Hi' & Ha).
      fold l in Hr, Hi', Ha. fold recs' in Hr, Hi', Ha.
      exists (map rec_of l ++ news), T'. do 2 eexists. split.
      { rewrite (run_bind_eq _ _ _ _ _ Hr). reflexivity. }
      fold recs'. splits; auto.
      * unfold szinv. cbn [st_p1 pool_empty pl_map pbytes]. rewrite blen_nil. split; lia.
      * rewrite El. discriminate.
      * cbn [st_frac]. rewrite <- (si_thresh _ _ _ _ _ _ Hi). apply (cr_growth _ _ _ _ _ _ _ _ _ Hc).
    + right. split.
      * apply proj1 in Hbig. fold recs' in Hbig. unfold too_long, dat_hdr_size in *.
        assert (blen (kvs recs') * blen (kvs recs') <= i * i) by (apply sq_mono; lia). lia.
      * do 2 eexists. split; [rewrite (run_bind_eq _ _ _ _ _ Hr); reflexivity|]. split; [reflexivity|].
        exact (too_big_near _ _ Hbig).
Qed.

(** The answers of single calls, spelt out. *)
Lemma do_op_insert s k v w :
  do_op e s (OpInsert k v) w =
    let '(w', r) := run (store_insert e s k v) w in
    (w', Some (match r with Ok s' => s' | Er _ => s end), insert_out r).
Proof using. unfold do_op, op_prog. rewrite run_bind. destruct (run _ w); reflexivity. Qed.

Lemma do_op_fetch s k w :
  do_op e s (OpFetch k) w =
    let '(w', r) := run (store_fetch e s k) w in (w', Some s, fetch_out r).
Proof using. unfold do_op, op_prog. rewrite run_bind. destruct (run _ w); reflexivity. Qed.

Lemma do_op_flush s w :
  do_op e s OpFlush w =
    let '(w', s') := run (store_flush e s) w in (w', Some s', done_out (st_ec s')).
Proof using. unfold do_op, op_prog. rewrite run_bind. destruct (run _ w); reflexivity. Qed.

Lemma do_op_reopen s w :
  do_op e s OpReopen w =
    let '(w', r) := run (store_close e s) w in
    match r with
    | Er er => (w', None, done_out (Some er))
    | Ok _ =>
      let '(w'', r) := run (store_open e) w' in
      match r with
      | Er er => (w'', None, done_out (Some er))
      | Ok s' => (w'', Some s', ODone)
      end
    end.
Proof using.
  unfold do_op, op_prog. rewrite run_bind. destruct (run (store_close e s) w) as [w' [u|er]]; [|reflexivity].
  rewrite run_bind. destruct (run (store_open e) w') as [w'' [s'|er]]; reflexivity.
Qed.

(** Further effects of a call: what is flushed and how the table grows. *)
Record step_more (recs x : list drec) (T T' : list bent) (s s' : store) (c : op) (o : out) : Prop := StepMore {
  sm_recs : match c with OpInsert _ _ | OpFetch _ => x = [] | _ => pl_map (st_p1 s') = [] end;
  sm_count : blen (kvs (recs ++ x)) + blen (pl_map (st_p1 s')) =
    blen (kvs recs) + blen (pl_map (st_p1 s)) + inserted [o];
  sm_grow : match c with
    | OpReopen => st_frac s' = db_thresh p / 2
    | _ => st_frac s' + db_thresh p * blen T' + 65536 * blen (kvs recs) =
           st_frac s + db_thresh p * blen T + 65536 * blen (kvs (recs ++ x))
    end;
  sm_kvs : kvs (recs ++ x) = match c with
    | OpInsert _ _ | OpFetch _ => kvs recs
    | _ => kvs recs ++ map (fun y => (pe_key y, pe_data y)) (pl_map (st_p1 s))
    end }.

Lemma reopen_ok recs T s w i b :
  sinv recs T s w -> szinv recs s i b ->
  (exists x T' s' w', do_op e s OpReopen w = (w', Some s', ODone) /\ sinv (recs ++ x) T' s' w' /\
     szinv (recs ++ x) s' i b /\ (forall k, abs (recs ++ x) s' k = abs recs s k) /\
     step_more recs x T T' s s' OpReopen ODone) \/
  (too_long i b /\ exists w', do_op e s OpReopen w = (w', None, OAborted) /\ near_limit w').
Proof.
  intros Hi Hz. destruct (flush_ok _ _ _ _ _ _ Hi Hz) as [(x & T' & s' & w' & Hr & Hi' & He & Hz' & Hkv & Ha & _)|[Hbig (w' & s' & Hr & He & Hnl)]].
  - left. pose proof (si_disk _ _ _ _ _ _ Hi') as Hd'.
    destruct (open_ok e p Hp (recs ++ x) T' (wset w' FLog None)) as [Ho Hi2].
    { apply disk_wlog; auto. }
    { left. apply wget_wset_same. }
    exists x, T'. do 2 eexists. split.
    { rewrite do_op_reopen. unfold store_close. rewrite (run_bind_eq _ _ _ _ _ Hr).
      rewrite (si_ec _ _ _ _ _ _ Hi').
      rewrite (run_erase FLog w' _ (si_log _ _ _ _ _ _ Hi')). rewrite Ho. reflexivity. }
    splits; auto.
    + destruct Hz' as [Z1 Z2]. rewrite He in Z1, Z2. split; auto.
    + intros k. rewrite <- Ha. unfold abs. cbn [st_p1]. change (pool_find pool_empty k) with (@None pelem).
      unfold pool_find. rewrite He. reflexivity.
    + constructor; cbn [st_p1 st_frac pool_empty pl_map inserted]; auto.
      rewrite Hkv, blen_app, blen_map. change (blen (@nil pelem)) with 0. clear. lia.
  - right. split; auto. exists w'. split; [|exact Hnl]. rewrite do_op_reopen. unfold store_close.
    rewrite (run_bind_eq _ _ _ _ _ Hr). rewrite He. reflexivity.
Qed.

Lemma szinv_mono recs s i b i' b' : szinv recs s i b -> i <= i' -> b <= b' -> szinv recs s i' b'.
Proof. unfold szinv. lia. Qed.

(** One call. *)
Lemma do_op_ok recs T s w i b c m :
  sinv recs T s w -> szinv recs s i b -> valid_op ks c -> (forall k, m k = abs recs s k) ->
  let i' := i + op_inserts c in let b' := b + op_bytes c in
  (exists x T' s' w', do_op e s c w = (w', Some s', snd (spec_step m c)) /\ sinv (recs ++ x) T' s' w' /\
     szinv (recs ++ x) s' i' b' /\ (forall k, fst (spec_step m c) k = abs (recs ++ x) s' k) /\
     step_more recs x T T' s s' c (snd (spec_step m c))) \/
  (too_long i' b' /\ exists w' o, do_op e s c w = (w', o, OAborted) /\ near_limit w').
Proof.
  intros Hi Hz Hv Hm i' b'. destruct c as [k v|k| |].
  - destruct Hv as (Hk & Hv1 & Hv2). left. rewrite do_op_insert. cbn [spec_step].
    pose proof (insert_ok e p Hp recs T s w k v Hi Hk Hv1 Hv2) as X. rewrite Hm.
    destruct (abs recs s k) eqn:Ea.
    + exists [], T, s, w. rewrite app_nil_r, X. splits; auto.
      * eapply szinv_mono; eauto; unfold i', b'; lia.
      * constructor; rewrite ?app_nil_r; cbn [inserted snd]; auto. lia.
    + destruct X as (s' & Hr & Hi' & Hperm & Hfr & Ha). exists [], T, s', w. rewrite app_nil_r, Hr.
      assert (Hpl : blen (pl_map (st_p1 s')) = blen (pl_map (st_p1 s)) + 1).
      { rewrite (blen_perm _ _ Hperm), blen_cons. lia. }
      splits; auto.
      * unfold szinv, i', b' in *. cbn [op_inserts op_bytes].
        rewrite (pbytes_perm _ _ Hperm). cbn [pbytes pe_new pe_key pe_data]. lia.
      * intros k'. simpl. unfold sput. rewrite Ha, Hm. auto.
      * constructor; rewrite ?app_nil_r; cbn [inserted snd]; auto.
        { rewrite Hpl. clear. lia. }
        { rewrite Hfr. auto. }
  - left. rewrite do_op_fetch. cbn [spec_step]. simpl in Hv. rewrite (fetch_ok e p Hp recs T s w k Hi Hv), Hm.
    exists [], T, s, w.
    assert (Y : forall o, inserted [o] = 0 -> step_more recs [] T T s s (OpFetch k) o).
    { intros o Ho. constructor; rewrite ?app_nil_r, ?Ho; auto. clear. lia. }
    rewrite app_nil_r.
    destruct (abs recs s k); splits; auto; eapply szinv_mono; eauto; unfold i', b'; lia.
  - rewrite do_op_flush. cbn [spec_step op_inserts op_bytes] in *. unfold i', b'. rewrite !N.add_0_r.
    destruct (flush_ok _ _ _ _ _ _ Hi Hz) as [(x & T' & s' & w' & Hr & Hi' & He & Hz' & Hkv & Ha & _ & Hg)|[Hbig (w' & s' & Hr & He & Hnl)]].
    + left. exists x, T', s', w'. rewrite Hr, (si_ec _ _ _ _ _ _ Hi'). splits; auto.
      * intros k. simpl. rewrite Ha. auto.
      * constructor; cbn [inserted snd]; auto; rewrite Hkv, blen_app, blen_map.
        { rewrite He. change (blen (@nil pelem)) with 0. clear. lia. }
        { clear - Hg. lia. }
    + right. split; auto. do 2 eexists. rewrite Hr, He. split; [reflexivity|exact Hnl].
  - unfold i', b'. rewrite !N.add_0_r.
    destruct (reopen_ok _ _ _ _ _ _ Hi Hz) as [(x & T' & s' & w' & Hr & Hi' & Hz' & Ha & Hs)|[Hbig (w' & Hr)]].
    + left. exists x, T', s', w'. splits; auto. intros k. simpl. rewrite Ha. auto.
    + right. split; auto. eauto.
Qed.

Lemma abs_flushed recs s k : pl_map (st_p1 s) = [] -> abs recs s k = kfind (kvs recs) k.
Proof using. intros He. unfold abs, pool_find. rewrite He. reflexivity. Qed.

Lemma spec_step_not_aborted m c : snd (spec_step m c) <> OAborted.
Proof. destruct c as [k v|k| |]; simpl; try discriminate; destruct (m k); discriminate. Qed.

Lemma inserted_app a b : inserted (a ++ b) = inserted a + inserted b.
Proof using. induction a as [|o a IH]; [reflexivity|]. destruct o; cbn [inserted app]; lia. Qed.

Lemma do_ops_ok l : forall recs T s w i b m d,
  sinv recs T s w -> szinv recs s i b -> Forall (valid_op ks) l -> (forall k, m k = abs recs s k) ->
  (forall k, d k = kfind (kvs recs) k) ->
  (exists x T' s' w', do_ops e s l w = (w', Some s', spec_outs m l) /\ sinv (recs ++ x) T' s' w' /\
     szinv (recs ++ x) s' (i + inserts l) (b + insert_bytes l) /\
     (forall k, spec_final m l k = abs (recs ++ x) s' k) /\
     (forall k, spec_durable m d l k = kfind (kvs (recs ++ x)) k) /\
     blen (kvs (recs ++ x)) + blen (pl_map (st_p1 s')) =
       blen (kvs recs) + blen (pl_map (st_p1 s)) + inserted (spec_outs m l)) \/
  (too_long (i + inserts l) (b + insert_bytes l) /\
   exists w' n, (n < length l)%nat /\ near_limit w' /\
     do_ops e s l w = (w', None, firstn n (spec_outs m l) ++ [OAborted])).
Proof.
  induction l as [|c l IH]; intros recs T s w i b m d Hi Hz Hv Hm Hd.
  - left. exists [], T, s, w. rewrite app_nil_r. cbn [inserts insert_bytes spec_outs inserted]. rewrite !N.add_0_r.
    simpl. splits; auto.
  - inversion Hv as [|? ? Hc Hl]; subst. cbn [inserts insert_bytes do_ops spec_outs spec_final spec_durable].
    destruct (do_op_ok _ _ _ _ _ _ _ m Hi Hz Hc Hm) as [(x & T1 & s1 & w1 & Hr & Hi1 & Hz1 & Hm1 & [Sr Sc _])|[Hbig (w1 & o1 & Hr & Hnl)]].
    + rewrite Hr. destruct (spec_step m c) as [m1 o] eqn:Es. cbn [fst snd] in *.
      assert (Ho : o <> OAborted) by (pose proof (spec_step_not_aborted m c); rewrite Es in *; auto).
      set (d1 := match c with OpFlush | OpReopen => m1 | _ => d end).
      assert (Hd1 : forall k, d1 k = kfind (kvs (recs ++ x)) k).
      { intros k. unfold d1. destruct c; try (rewrite Sr, app_nil_r; apply Hd);
          rewrite Hm1; apply abs_flushed; auto. }
      destruct (IH _ _ _ _ _ _ m1 d1 Hi1 Hz1 Hl Hm1 Hd1) as [(y & T2 & s2 & w2 & Hr2 & Hi2 & Hz2 & Hm2 & Hd2 & Hc2)|[Hbig (w2 & n & Hn & Hnl & Hr2)]].
      * left. exists (x ++ y), T2, s2, w2. rewrite app_assoc. rewrite Hr2. rewrite !N.add_assoc. splits; auto.
        { destruct o; congruence. }
        { change (o :: spec_outs m1 l) with ([o] ++ spec_outs m1 l). rewrite inserted_app.
          clear - Sc Hc2. lia. }
      * right. rewrite !N.add_assoc. split; auto. exists w2, (Datatypes.S n). split; [simpl; lia|]. split; [exact Hnl|].
        rewrite Hr2. destruct o; try reflexivity. congruence.
    + right. split.
      * unfold too_long in *. assert ((i + op_inserts c) * (i + op_inserts c) <=
          (i + (op_inserts c + inserts l)) * (i + (op_inserts c + inserts l))) by (apply sq_mono; lia). lia.
      * exists w1, 0%nat. split; [simpl; lia|]. split; [exact Hnl|]. rewrite Hr.
        destruct o1; reflexivity.
Qed.
End History.
