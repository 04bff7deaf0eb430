(** A read error in the middle of a large log: the files of C84_large_refuted.  The log has 3132 records of 34 bytes and
    one that is cut off behind its header, so the first read ends between the index and the bucket of the last one. *)
From Verif Require Import Model.Bytes Proofs.BytesFacts Model.Err Model.Field Model.Format Model.IO Model.BulkIO Model.Bucket
  Model.Recover Model.Create Model.Store Model.History Model.Crash Model.FailFile Spec SpecHeader SpecRetry
  Proofs.IOFacts Proofs.SafeFacts Proofs.FailFileFacts Proofs.Witness Props.Samples.
Opaque loop.

(** ** Programs without failures up to some point *)
Definition goes {A} (p : prog A) (w : world) (q : prog A) (v : world) : Prop := exists m, reach p w m q v.

Lemma goes_run {A} (p : prog A) w v a : run p w = (v, a) -> goes p w (Ret a) v.
Proof. intros R. destruct (reach_total p w) as (K & H). rewrite R in H. exists K. exact H. Qed.

Lemma goes_trans {A} (p q r : prog A) w v u : goes p w q v -> goes q v r u -> goes p w r u.
Proof.
  intros [m H] [n G]. induction H as [p w|o k w m q v H IH]; [exists n; auto|].
  destruct (IH G) as [i X]. exists (chances o + i). apply reach_next. exact X.
Qed.

Lemma goes_bind {A B} (p q : prog A) (f : A -> prog B) w v : goes p w q v -> goes (bind p f) w (bind q f) v.
Proof.
  intros [m H]. exists m. induction H as [p w|o k w m q v H IH]; [constructor|]. cbn [bind]. apply reach_next. exact IH.
Qed.

Lemma goes_ebind {A B} (p : prog (res A)) (f : A -> prog (res B)) w w1 a q v :
  run p w = (w1, Ok a) -> goes (f a) w1 q v -> goes (ebind p f) w q v.
Proof.
  intros R G. eapply goes_trans; [|exact G]. unfold ebind.
  eapply goes_trans; [apply goes_bind, goes_run; exact R|]. cbn [bind]. exists 0. constructor.
Qed.

Lemma goes_fsteps {A} (p q : prog A) w v S : goes p w q v -> exists S', fsteps log_in_order p w S q v S'.
Proof.
  intros [m H]. revert S. induction H as [p w|o k w m q v H IH]; intros S; [exists S; constructor|].
  destruct (IH (sexec log_in_order o w S)) as [S' X]. exists S'. apply fsteps_ok. exact X.
Qed.

Lemma fsteps_trans {A} (p q r : prog A) w v u S S1 S2 : fsteps log_in_order p w S q v S1 ->
  fsteps log_in_order q v S1 r u S2 -> fsteps log_in_order p w S r u S2.
Proof.
  intros H G. induction H as [p w S|o k w S p' w' S' H IH|o k w S n w1 p' w' S' Hf H IH]; auto.
  - apply fsteps_ok. auto.
  - eapply fsteps_fail; eauto.
Qed.

Lemma fsteps_bind {A B} (p q : prog A) (f : A -> prog B) w v S S1 : fsteps log_in_order p w S q v S1 ->
  fsteps log_in_order (bind p f) w S (bind q f) v S1.
Proof.
  intros H. induction H as [p w S|o k w S p' w' S' H IH|o k w S n w1 p' w' S' Hf H IH]; cbn [bind].
  - constructor.
  - apply fsteps_ok. auto.
  - eapply fsteps_fail; eauto.
Qed.

Lemma fsteps_run {A} (p : prog A) w v a S : run p w = (v, a) -> exists S', fsteps log_in_order p w S (Ret a) v S'.
Proof. intros R. apply goes_fsteps. apply goes_run. exact R. Qed.

(** ** Loops with failures *)
Inductive fchain {St R} (step : St -> prog (St + R)) :
    nat -> St -> world -> surv -> R -> world -> surv -> Prop :=
| fc_done s w S x w' S' : fsteps log_in_order (step s) w S (Ret (inr x)) w' S' -> fchain step 1 s w S x w' S'
| fc_more n s s1 w S w1 S1 x w' S' :
    fsteps log_in_order (step s) w S (Ret (inl s1)) w1 S1 -> fchain step n s1 w1 S1 x w' S' ->
    fchain step (Datatypes.S n) s w S x w' S'.

Lemma fchain_pos {St R} (step : St -> prog (St + R)) n s w S x w' S' : fchain step n s w S x w' S' -> (1 <= n)%nat.
Proof. destruct 1; lia. Qed.

Lemma iterp_chain {St R} (step : St -> prog (St + R)) p : forall n s w S x w' S', fchain step n s w S x w' S' ->
  ((n <= Pos.to_nat p)%nat -> fsteps log_in_order (iterp p step s) w S (Ret (inr x)) w' S') /\
  ((Pos.to_nat p < n)%nat -> exists s1 w1 S1, fsteps log_in_order (iterp p step s) w S (Ret (inl s1)) w1 S1 /\
     fchain step (n - Pos.to_nat p) s1 w1 S1 x w' S').
Proof.
  induction p as [q IH|q IH|]; intros n s w S x w' S' C; cbn [iterp].
  - assert (T : forall m s w S, fchain step m s w S x w' S' -> let p2 := bind (iterp q step s) (fun r =>
        match r with inl s' => iterp q step s' | inr x => Ret (inr x) end) in
      ((m <= 2 * Pos.to_nat q)%nat -> fsteps log_in_order p2 w S (Ret (inr x)) w' S') /\
      ((2 * Pos.to_nat q < m)%nat -> exists s1 w1 S1, fsteps log_in_order p2 w S (Ret (inl s1)) w1 S1 /\
         fchain step (m - 2 * Pos.to_nat q) s1 w1 S1 x w' S')).
    { clear - IH. intros m s w S C p2. destruct (IH m s w S x w' S' C) as [I1 I2].
      destruct (Nat.le_gt_cases m (Pos.to_nat q)) as [L|L].
      - split; intros; [|lia]. eapply fsteps_trans; [apply fsteps_bind; apply I1; exact L|]. constructor.
      - destruct (I2 L) as (s1 & w1 & S1 & F & C1). destruct (IH _ _ _ _ _ _ _ C1) as [J1 J2]. split; intros.
        + eapply fsteps_trans; [apply fsteps_bind; exact F|]. cbn [bind]. apply J1. lia.
        + destruct J2 as (s2 & w2 & S2 & F2 & C2); [lia|]. exists s2, w2, S2. split.
          * eapply fsteps_trans; [apply fsteps_bind; exact F|]. exact F2.
          * replace (m - 2 * Pos.to_nat q)%nat with (m - Pos.to_nat q - Pos.to_nat q)%nat by lia. exact C2. }
    pose proof (Pos2Nat.is_pos q). pose proof (Pos2Nat.inj_xI q) as X.
    inversion C as [s0 w0 S0 x0 w0' S0' F|m s0 s1 w0 S0 w1 S1 x0 w0' S0' F C1]; subst.
    + split; intros; [|lia]. eapply fsteps_trans; [apply fsteps_bind; exact F|]. constructor.
    + destruct (T _ _ _ _ C1) as [T1 T2]. split; intros.
      * eapply fsteps_trans; [apply fsteps_bind; exact F|]. cbn [bind]. apply T1. lia.
      * destruct T2 as (s2 & w2 & S2 & F2 & C2); [lia|]. exists s2, w2, S2. split.
        -- eapply fsteps_trans; [apply fsteps_bind; exact F|]. exact F2.
        -- replace (Datatypes.S m - Pos.to_nat q~1)%nat with (m - 2 * Pos.to_nat q)%nat by lia. exact C2.
  - pose proof (Pos2Nat.is_pos q). pose proof (Pos2Nat.inj_xO q) as X.
    destruct (IH n s w S x w' S' C) as [I1 I2].
    destruct (Nat.le_gt_cases n (Pos.to_nat q)) as [L|L].
    + split; intros; [|lia]. eapply fsteps_trans; [apply fsteps_bind; apply I1; exact L|]. constructor.
    + destruct (I2 L) as (s1 & w1 & S1 & F & C1). destruct (IH _ _ _ _ _ _ _ C1) as [J1 J2]. split; intros.
      * eapply fsteps_trans; [apply fsteps_bind; exact F|]. cbn [bind]. apply J1. lia.
      * destruct J2 as (s2 & w2 & S2 & F2 & C2); [lia|]. exists s2, w2, S2. split.
        -- eapply fsteps_trans; [apply fsteps_bind; exact F|]. exact F2.
        -- replace (n - Pos.to_nat q~0)%nat with (n - Pos.to_nat q - Pos.to_nat q)%nat by lia. exact C2.
  - change (Pos.to_nat 1) with 1%nat.
    inversion C as [s0 w0 S0 x0 w0' S0' F|m s0 s1 w0 S0 w1 S1 x0 w0' S0' F C1]; subst.
    + split; intros; [exact F|lia].
    + pose proof (fchain_pos _ _ _ _ _ _ _ _ C1). split; intros; [lia|].
      exists s1, w1, S1. split; auto. replace (Datatypes.S m - 1)%nat with m by lia. exact C1.
Qed.

Transparent loop.
Lemma loop_chain {St R} (step : St -> prog (St + res R)) n s w S x w' S' : fchain step n s w S x w' S' ->
  N.of_nat n <= 18446744073709551616 -> fsteps log_in_order (loop step s) w S (Ret x) w' S'.
Proof.
  intros C Hn. unfold loop. destruct (iterp_chain step fuel _ _ _ _ _ _ _ C) as [I _].
  assert (L : (n <= Pos.to_nat fuel)%nat) by (unfold fuel; lia). specialize (I L). clear L C.
  generalize dependent (iterp fuel step s). intros p I.
  eapply fsteps_trans; [apply fsteps_bind; exact I|]. constructor.
Qed.
Opaque loop.

(** ** The files *)
Definition four_acts : list act := map ACall (sample_inserts 4 ++ [OpFlush]).
Definition four_history := Eval vm_compute in history sample_env sample_args four_acts.
Definition four_dat : bytes := Eval vm_compute in
  match four_history with Some (World (Some d) _ _, _, _) => d | _ => [] end.
Definition four_key : bytes := Eval vm_compute in
  match four_history with Some (World _ (Some k) _, _, _) => k | _ => [] end.
Definition four_kh : key_header := Eval vm_compute in dec_key_header (bsub 0 104 four_key) 416.
Definition four_lh : bytes := Eval vm_compute in
  enc_log_header (commit_log_header sample_env four_kh 416 (blen four_dat)).
Definition idx0 : bytes := Eval vm_compute in wr64 0.
Definition head0 : bytes := Eval vm_compute in bsub 104 8 four_key.
Definition entry0 : bytes := Eval vm_compute in bsub 112 18 four_key.
Definition idx1 : bytes := Eval vm_compute in wr64 1.
Definition head1 : bytes := Eval vm_compute in bsub 208 8 four_key.
Definition rec0 : bytes := idx0 ++ head0 ++ entry0.
Definition recs0 (n : nat) : bytes := concat (repeat rec0 n).
Definition large_log (n : nat) : bytes := four_lh ++ recs0 n ++ idx1 ++ head1.
(** Bucket 0 over bucket 1. *)
Definition bad_key : bytes := Eval vm_compute in bwrite 208 (bsub 104 104 four_key) four_key.
Definition blob0 : bytes := Eval vm_compute in bwrite 8 entry0 (bwrite 0 head0 (fresh sample_env 104)).
Definition bk0 : bucket := Bucket 1 0 blob0.

Lemma blen_recs0 n : blen (recs0 n) = 34 * N.of_nat n.
Proof.
  induction n as [|n IH]; [reflexivity|]. unfold recs0 in *. cbn [repeat concat]. rewrite blen_app, IH.
  change (blen rec0) with 34. lia.
Qed.

Lemma prepare_have f last off x y cap n : blen x = n ->
  br_prepare (BReader f last off (x ++ y) cap) n = Ret (Ok (x, BReader f last off y cap)).
Proof.
  intros L. unfold br_prepare. cbn [br_avail]. rewrite blen_app.
  replace (blen x + blen y <? n) with false by lia. cbn [ebind bind pret br_file br_last br_off br_avail br_cap].
  unfold pret. cbn [ebind bind]. cbn [br_file br_last br_off br_avail br_cap].
  rewrite btake_app_eq, bdrop_app_eq by auto. reflexivity.
Qed.

Section Large.
Variable n : nat.
Hypothesis Hn : N.of_nat n = 3132.
Variable K : bytes.
Hypothesis HK : btake 104 K = btake 104 four_key.
Hypothesis HKlen : blen K = 416.
Hypothesis HK0 : bwrite 104 (bk_padded bk0) K = K.

Let W : world := World (Some four_dat) (Some K) (Some (large_log n)).
Let last : N := 106566.
Let off1 : N := 106558.

Lemma large_len : blen (large_log n) = last.
Proof using Hn HKlen HK0.
  unfold large_log. rewrite !blen_app, blen_recs0, Hn. reflexivity.
Qed.

Lemma step_have b rest off : blen (bk_blob b) = 104 -> 
  Bucket 1 0 (bwrite 8 entry0 (bk_blob (bk_update (Bucket 1 0 (bk_blob b))))) = bk0 -> off <= last -> off - blen (rec0 ++ rest) < last ->
  run (recover_step four_kh (blen four_dat) (b, BReader FLog last off (rec0 ++ rest) 106496)) W =
    (W, inl (bk0, BReader FLog last off rest 106496)).
Proof using Hn HKlen HK0.
  intros Hb Hbk Ho He. unfold recover_step.
  assert (E : br_eof (BReader FLog last off (rec0 ++ rest) 106496) = false).
  { unfold br_eof, br_offset. cbn [br_last br_off br_avail]. apply N.leb_gt. exact He. }
  rewrite E. unfold rec0. rewrite <- !app_assoc. rewrite prepare_have by reflexivity. cbn [bind]. cbv zeta.
  unfold bk_read_bulk. rewrite prepare_have by reflexivity. cbn [bind].
  change (rd16 (bsub 0 2 head0)) with 1. change (rd48 (bsub 2 6 head0)) with 0. cbv zeta.
  rewrite prepare_have by reflexivity. cbn [bind].
  replace (bk_bs (bk_update (Bucket 1 0 (bk_blob b))) <? 8 + 1 * 18) with false.
  2:{ symmetry. apply N.ltb_ge. unfold bk_bs, bk_update. cbn [bk_blob bk_size bk_spill].
      rewrite blen_bwrite_max, Hb. lia. }
  cbn [bind]. rewrite Hbk. change (bk_spill bk0) with 0.
  change (negb (0 =? 0) && (blen four_dat <? 0 + bucket_size (kh_capacity four_kh))) with false.
  change (kh_buckets four_kh <? rd64 idx0) with false. cbv iota.
  rewrite run_bind. unfold bk_write, p_write, do_unit. cbn [run exec]. change (wget W FKey) with (Some K).
  change ((rd64 idx0 + 1) * kh_block_size four_kh) with 104. cbn [andb]. cbv beta iota. rewrite HK0. reflexivity.
Qed.

Lemma first_read b : 
  run (recover_step four_kh (blen four_dat) (b, br_make FLog log_hdr_size last 106496)) W =
  run (recover_step four_kh (blen four_dat) (b, BReader FLog last off1 (recs0 n ++ idx1) 106496)) W.
Proof using Hn HKlen HK0.
  unfold recover_step.
  assert (L : blen (recs0 n ++ idx1) = 106496) by (rewrite blen_app, blen_recs0, Hn; reflexivity).
  assert (E : br_eof (BReader FLog last off1 (recs0 n ++ idx1) 106496) = false).
  { unfold br_eof, br_offset. cbn [br_last br_off br_avail]. rewrite L. reflexivity. }
  rewrite E. change (br_eof (br_make FLog log_hdr_size last 106496)) with false. cbv iota.
  rewrite !run_bind.
  assert (P : run (br_prepare (br_make FLog log_hdr_size last 106496) 8) W =
              run (br_prepare (BReader FLog last off1 (recs0 n ++ idx1) 106496) 8) W).
  { unfold br_prepare, br_make. cbn [br_avail br_last br_off br_cap br_file]. rewrite L.
    change (blen [] <? 8) with true. change (106496 <? 8) with false.
    change (last <? log_hdr_size + 8 - blen []) with false. cbv iota zeta.
    change (N.min (106496 - blen []) (last - log_hdr_size)) with 106496.
    assert (R : run (p_read FLog log_hdr_size 106496) W = (W, Ok (recs0 n ++ idx1))).
    { unfold p_read, do_data. cbn [run exec]. change (wget W FLog) with (Some (large_log n)). cbv beta iota.
      pose proof large_len as LL. unfold last in LL. rewrite LL. 
      change ((106496 =? 0) || (log_hdr_size + 106496 <=? 106566)) with true. cbv iota. cbn [run].
      do 2 f_equal. unfold large_log. rewrite (app_assoc (recs0 n)). apply bsub_app_eq; [reflexivity|]. symmetry. exact L. }
    unfold ebind. rewrite !run_bind, R. reflexivity. }
  rewrite P. reflexivity.
Qed.

Lemma last_step : run (recover_step four_kh (blen four_dat) (bk0, BReader FLog last off1 idx1 106496)) W = (W, inr (Ok tt)).
Proof using Hn HKlen HK0.
  unfold recover_step. change (br_eof (BReader FLog last off1 idx1 106496)) with false. cbv iota.
  rewrite <- (app_nil_r idx1). rewrite prepare_have by reflexivity. cbn [bind]. cbv zeta.
  rewrite run_bind. unfold bk_read_bulk. rewrite run_bind.
  unfold br_prepare at 1. cbn [br_avail br_last br_off br_cap br_file].
  change (blen [] <? 8) with true. change (106496 <? 8) with false.
  change (last <? off1 + 8 - blen []) with false. cbv iota zeta.
  change (N.min (106496 - blen []) (last - off1)) with 8. unfold ebind. rewrite !run_bind.
  assert (R : run (p_read FLog off1 8) W = (W, Ok head1)).
  { unfold p_read, do_data. cbn [run exec]. change (wget W FLog) with (Some (large_log n)). cbv beta iota.
    pose proof large_len as LL. unfold last in LL. rewrite LL.
    change ((8 =? 0) || (off1 + 8 <=? 106566)) with true. cbv iota. cbn [run].
    do 2 f_equal. unfold large_log. rewrite !app_assoc. apply bsub_app_eq'; [|reflexivity].
    rewrite !blen_app, blen_recs0, Hn. reflexivity. }
  rewrite R. reflexivity.
Qed.

Lemma last_fails S : exists S', 
  fsteps log_in_order (recover_step four_kh (blen four_dat) (bk0, BReader FLog last off1 idx1 106496)) W S
    (Ret (inr (Er (EIO 5)))) (World (Some four_dat) (Some (bwrite 208 (bk_padded bk0) K)) (Some (large_log n))) S'.
Proof using.
  clear HK HKlen HK0 Hn.
  unfold recover_step. change (br_eof (BReader FLog last off1 idx1 106496)) with false. cbv iota.
  rewrite <- (app_nil_r idx1). rewrite prepare_have by reflexivity. cbn [bind]. cbv zeta.
  unfold bk_read_bulk, br_prepare at 1. cbn [br_avail br_last br_off br_cap br_file].
  change (blen [] <? 8) with true. change (106496 <? 8) with false.
  change (last <? off1 + 8 - blen []) with false. cbv iota zeta.
  change (N.min (106496 - blen []) (last - off1)) with 8. unfold ebind, p_read, do_data. cbn [bind].
  eexists. eapply fsteps_fail with (n := 5) (w1 := W); [reflexivity|]. cbn [bind].
  change (negb (bk_spill bk0 =? 0) && (blen four_dat <? bk_spill bk0 + bucket_size (kh_capacity four_kh))) with false.
  change (kh_buckets four_kh <? rd64 idx1) with false. cbv iota.
  change ((rd64 idx1 + 1) * kh_block_size four_kh) with 208. unfold bk_write, p_write, do_unit. cbn [bind].
  apply fsteps_ok. apply fsteps_here.
Qed.

Definition rd (m : nat) : breader := BReader FLog last off1 (recs0 m ++ idx1) 106496.

Lemma more_step m : (m < n)%nat ->
  run (recover_step four_kh (blen four_dat) (bk0, rd (Datatypes.S m))) W = (W, inl (bk0, rd m)).
Proof using Hn HKlen HK0.
  intros Hm. unfold rd. change (recs0 (Datatypes.S m)) with (rec0 ++ recs0 m). rewrite <- app_assoc.
  apply step_have; [reflexivity|vm_compute; reflexivity|unfold off1, last; lia|].
  rewrite !blen_app, blen_recs0. change (blen rec0) with 34. change (blen idx1) with 8. unfold off1, last. lia.
Qed.

Lemma loops_have m : (m <= n)%nat ->
  loops (recover_step four_kh (blen four_dat)) (Datatypes.S m) (bk0, rd m) W W (Ok tt).
Proof using Hn HKlen HK0.
  induction m as [|m IH]; intros Hm.
  - apply loops_done. exact last_step.
  - eapply loops_more; [apply more_step; lia|]. apply IH. lia.
Qed.

Definition b_first : bucket := bk_of_blob (fresh sample_env 104).

Lemma first_step : exists m, Datatypes.S m = n /\
  run (recover_step four_kh (blen four_dat) (b_first, br_make FLog log_hdr_size last 106496)) W = (W, inl (bk0, rd m)).
Proof using Hn HKlen HK0.
  assert (E : exists m, n = Datatypes.S m) by (exists (n - 1)%nat; lia).
  destruct E as [m E]. exists m. split; auto.
  rewrite first_read. replace (recs0 n) with (rec0 ++ recs0 m) by (rewrite E; reflexivity). rewrite <- app_assoc.
  apply step_have; [reflexivity|vm_compute; reflexivity|unfold off1, last; lia|].
  rewrite !blen_app, blen_recs0. change (blen rec0) with 34. change (blen idx1) with 8. unfold off1, last. lia.
Qed.

Lemma loop_ends : run (loop (recover_step four_kh (blen four_dat)) (b_first, br_make FLog log_hdr_size last 106496)) W = (W, Ok tt).
Proof using Hn HKlen HK0.
  destruct first_step as (m & Hm & F). eapply loop_run.
  - eapply loops_more; [exact F|]. apply loops_have. lia.
  - lia.
Qed.

Lemma chain_have m : (m <= n)%nat -> forall S, exists S',
  fchain (recover_step four_kh (blen four_dat)) (Datatypes.S m) (bk0, rd m) W S (Er (EIO 5))
    (World (Some four_dat) (Some (bwrite 208 (bk_padded bk0) K)) (Some (large_log n))) S'.
Proof using Hn HKlen HK0.
  induction m as [|m IH]; intros Hm S.
  - destruct (last_fails S) as (S' & F). exists S'. apply fc_done. exact F.
  - destruct (fsteps_run _ _ _ _ S (more_step m Hm)) as (S1 & F).
    destruct (IH ltac:(lia) S1) as (S' & C). exists S'. eapply fc_more; [exact F|exact C].
Qed.

Lemma loop_fails S : exists S',
  fsteps log_in_order (loop (recover_step four_kh (blen four_dat)) (b_first, br_make FLog log_hdr_size last 106496)) W S
    (Ret (Er (EIO 5))) (World (Some four_dat) (Some (bwrite 208 (bk_padded bk0) K)) (Some (large_log n))) S'.
Proof using Hn HKlen HK0.
  destruct first_step as (m & Hm & F). destruct (fsteps_run _ _ _ _ S F) as (S1 & F1).
  destruct (chain_have m ltac:(lia) S1) as (S' & C). exists S'. eapply loop_chain.
  - eapply fc_more; [exact F1|exact C].
  - lia.
Qed.

(** ** The whole of recover() *)
Definition rest_of_recover : prog (res unit) :=
  recover_trunc_files (dec_log_header four_lh) ;;; recover_clear_log.

Lemma recover_goes : goes (recover sample_env) W
  (bind (loop (recover_step four_kh (blen four_dat)) (b_first, br_make FLog log_hdr_size last 106496))
    (fun r => match r with Ok _ => rest_of_recover | Er er => Ret (Er er) end)) W.
Proof using Hn HK HKlen HK0.
  unfold recover.
  apply (goes_ebind _ _ W W tt); [reflexivity|].
  apply (goes_ebind _ _ W W (blen four_dat)); [reflexivity|].
  apply (goes_ebind _ _ W W (dec_dat_header (bsub 0 92 four_dat))); [reflexivity|].
  apply (goes_ebind _ _ W W tt); [reflexivity|].
  apply (goes_ebind _ _ W W tt); [reflexivity|].
  apply (goes_ebind _ _ W W (blen K)); [reflexivity|].
  rewrite HKlen. change (416 <=? key_hdr_size) with false. cbv iota.
  eapply goes_trans; [apply goes_bind; apply (goes_run _ _ W (Ok tt)); reflexivity|]. cbn [bind].
  apply (goes_ebind _ _ W W (blen (large_log n))); [reflexivity|]. rewrite large_len.
  eapply goes_trans; [apply goes_bind; apply (goes_run _ _ W (Ok (dec_log_header four_lh)))|].
  { unfold read_log_header, ebind. rewrite run_bind. unfold p_read, do_data. cbn [run exec].
    change (wget W FLog) with (Some (large_log n)). cbv beta iota.
    pose proof large_len as LL. unfold last in LL. rewrite LL.
    change ((log_hdr_size =? 0) || (0 + log_hdr_size <=? 106566)) with true. cbv iota. cbn [run pret].
    rewrite bsub_0. unfold large_log. rewrite btake_app_eq by reflexivity. reflexivity. }
  cbn [bind]. apply (goes_ebind _ _ W W tt); [reflexivity|].
  change (lh_key_file_size (dec_log_header four_lh) =? 0) with false. cbv iota.
  unfold rest_of_recover. unfold ebind at 1. apply goes_bind. unfold recover_replay.
  apply (goes_ebind _ _ W W four_kh).
  { unfold read_key_header, ebind. rewrite run_bind. unfold p_read, do_data. cbn [run exec].
    change (wget W FKey) with (Some K). cbv beta iota. rewrite HKlen.
    change ((key_hdr_size =? 0) || (0 + key_hdr_size <=? 416)) with true. cbv iota. cbn [run].
    rewrite run_bind. unfold p_size, do_num. cbn [run exec]. change (wget W FKey) with (Some K). cbv beta iota.
    cbn [run pret]. rewrite HKlen, bsub_0. change key_hdr_size with 104. rewrite HK. reflexivity. }
  apply (goes_ebind _ _ W W tt); [reflexivity|].
  apply (goes_ebind _ _ W W tt); [reflexivity|].
  apply (goes_ebind _ _ W W tt); [reflexivity|].
  exists 0. apply reach_here.
Qed.

Lemma goes_same {A} (p q : prog A) w v : goes p w q v -> run p w = run q v.
Proof using. clear. intros [m H]. eapply reach_run. exact H. Qed.

Lemma recover_ok : run (recover sample_env) W = (World (Some four_dat) (Some K) None, Ok tt).
Proof using Hn HK HKlen HK0.
  rewrite (goes_same _ _ _ _ recover_goes). rewrite run_bind, loop_ends.
  unfold rest_of_recover, recover_trunc_files, recover_clear_log.
  change (lh_dat_file_size (dec_log_header four_lh)) with (blen four_dat).
  change (lh_key_file_size (dec_log_header four_lh)) with 416. change (negb (416 =? 0)) with true. cbv iota.
  assert (T : btrunc 416 K = K).
  { unfold btrunc. rewrite btake_all by lia. replace (416 - blen K) with 0 by lia. apply app_nil_r. }
  assert (D : btrunc (blen four_dat) four_dat = four_dat) by (vm_compute; reflexivity).
  unfold p_trunc, p_sync, p_erase, do_unit, ebind. cbn [bind run exec].
  change (wget W FDat) with (Some four_dat). cbv beta iota. rewrite D. cbn [bind run exec].
  change (wget (wset W FDat (Some four_dat)) FDat) with (Some four_dat). cbv beta iota. cbn [bind run exec].
  change (wget (wset W FDat (Some four_dat)) FKey) with (Some K). cbv beta iota. rewrite T. reflexivity.
Qed.

Lemma recover_fails : exists S', fsteps log_in_order (recover sample_env) W (durable W) (Ret (Er (EIO 5)))
  (World (Some four_dat) (Some (bwrite 208 (bk_padded bk0) K)) (Some (large_log n))) S'.
Proof using Hn HK HKlen HK0.
  destruct (goes_fsteps _ _ _ _ (durable W) recover_goes) as (S1 & F1).
  destruct (loop_fails S1) as (S2 & F2). exists S2.
  eapply fsteps_trans; [exact F1|]. eapply fsteps_trans; [apply fsteps_bind; exact F2|]. apply fsteps_here.
Qed.
End Large.

Definition large_files : world := World (Some four_dat) (Some four_key) (Some (large_log (N.to_nat 3132))).
Definition large_failed : world := World (Some four_dat) (Some bad_key) (Some (large_log (N.to_nat 3132))).

Lemma large_facts :
  run (recover sample_env) large_files = (World (Some four_dat) (Some four_key) None, Ok tt) /\
  (exists S', fsteps log_in_order (recover sample_env) large_files (durable large_files) (Ret (Er (EIO 5))) large_failed S') /\
  run (recover sample_env) large_failed = (World (Some four_dat) (Some bad_key) None, Ok tt).
Proof.
  assert (Hn : N.of_nat (N.to_nat 3132) = 3132) by apply N2Nat.id.
  assert (B : bwrite 208 (bk_padded bk0) four_key = bad_key) by (vm_compute; reflexivity).
  assert (H0 : bwrite 104 (bk_padded bk0) four_key = four_key) by (vm_compute; reflexivity).
  assert (H1 : bwrite 104 (bk_padded bk0) bad_key = bad_key) by (vm_compute; reflexivity).
  assert (HH : btake 104 bad_key = btake 104 four_key) by (vm_compute; reflexivity).
  assert (L0 : blen four_key = 416) by (vm_compute; reflexivity).
  assert (L1 : blen bad_key = 416) by (vm_compute; reflexivity).
  pose proof (recover_ok _ Hn four_key eq_refl L0 H0) as R1.
  pose proof (recover_fails _ Hn four_key eq_refl L0 H0) as R2. rewrite B in R2.
  pose proof (recover_ok _ Hn bad_key HH L1 H1) as R3.
  split; [exact R1|]. split; [exact R2|exact R3].
Qed.

Definition fetched (w : world) (k : bytes) : res bytes :=
  match run (store_open sample_env) w with
  | (w', Ok s) => snd (run (store_fetch sample_env s k) w')
  | (_, Er er) => Er er
  end.

Lemma large_effect :
  fetched (World (Some four_dat) (Some four_key) None) (sample_key 1) = Ok (sample_val 1) /\
  fetched (World (Some four_dat) (Some bad_key) None) (sample_key 1) = Er key_not_found.
Proof. split; vm_compute; reflexivity. Qed.
