(** create(): accepted and rejected arguments, existing files, failures. *)
From Verif Require Import Model.Bytes Model.Err Model.Field Model.Format Model.IO
  Model.BulkIO Model.Bucket Model.Pool Model.Recover Model.Create Model.Store Spec Model.History Model.Crash
  SpecFormat SpecHeader SpecCreate
  Proofs.BytesFacts Proofs.FieldFacts Proofs.IOFacts Proofs.PoolFacts Proofs.BucketFacts
  Proofs.BulkFacts Proofs.HashFacts Proofs.Table Proofs.Lookup Proofs.SplitFacts
  Proofs.CommitFacts Proofs.CommitInv Proofs.CommitRun Proofs.HeaderFacts Proofs.StoreInv
  Proofs.OpenFacts Proofs.HistoryFacts Proofs.LifeFacts Proofs.SafeFacts Proofs.CommitOps Proofs.FailFacts
  Proofs.FormatFacts Proofs.MapFacts Proofs.RefuseFacts.

Lemma capacity_104 b : (bucket_capacity b <? 1) = (b <? 104).
Proof.
  unfold bucket_capacity, key_hdr_size. change (2 + 6) with 8. change (6 + 6 + 6) with 18.
  destruct (N.ltb_spec b 104); cbn [orb]; [reflexivity|].
  replace (b <? 8) with false by lia. apply N.ltb_ge. apply N.div_le_lower_bound; lia.
Qed.

Lemma lf_check f : lf_invalid f = negb (load_factor_ok f).
Proof.
  destruct f as [|n d]; [reflexivity|]. unfold lf_invalid, load_factor_ok.
  destruct (Z.leb_spec n 0), (Z.ltb_spec 0 n), (Z.leb_spec (Z.pos d) n), (Z.ltb_spec n (Z.pos d)); try lia; reflexivity.
Qed.

Lemma create_rejects e a w er : first_failed (arg_checks a) = Some er -> run (create e a) w = (w, Er er).
Proof.
  unfold arg_checks, create. cbn [first_failed]. rewrite capacity_104, lt1, lf_check.
  destruct (1 <=? ca_key_size a); cbn [negb]; [|intros [= <-]; reflexivity].
  destruct (N.leb_spec (ca_block_size a) 65535), (N.ltb_spec 65535 (ca_block_size a)); try lia;
    [|intros [= <-]; reflexivity].
  destruct (load_factor_ok (ca_load_factor a)); cbn [negb]; [|intros [= <-]; reflexivity].
  destruct (N.leb_spec 104 (ca_block_size a)), (N.ltb_spec (ca_block_size a) 104); try lia;
    [discriminate|intros [= <-]; reflexivity].
Qed.

Definition create_body (e : env) (a : create_args) : prog (res unit) :=
    bind (p_create FDat) (fun r1 =>
    match r1 with
    | Er er => create_fail false false false er
    | Ok _ =>
      bind (p_create FKey) (fun r2 =>
      match r2 with
      | Er er => create_fail true false false er
      | Ok _ =>
        bind (p_create FLog) (fun r3 =>
        match r3 with
        | Er er => create_fail true true false er
        | Ok _ =>
          bind (create_fill e a) (fun r4 =>
          match r4 with
          | Ok _ => pret tt
          | Er EUB => pfail EUB
          | Er er => create_fail true true true er
          end)
        end)
      end)
    end).

Lemma create_accepted e a : first_failed (arg_checks a) = None -> create e a = create_body e a.
Proof.
  unfold arg_checks, create. cbn [first_failed]. rewrite capacity_104, lt1, lf_check.
  destruct (1 <=? ca_key_size a); cbn [negb]; [|discriminate].
  destruct (N.leb_spec (ca_block_size a) 65535), (N.ltb_spec 65535 (ca_block_size a)); try lia; [|discriminate].
  destruct (load_factor_ok (ca_load_factor a)); cbn [negb]; [|discriminate].
  destruct (N.leb_spec 104 (ca_block_size a)), (N.ltb_spec (ca_block_size a) 104); try lia; [reflexivity|discriminate].
Qed.

Lemma create_exists e a w : first_failed (arg_checks a) = None -> w <> no_files ->
  run (create e a) w = (w, Er EExist).
Proof.
  intros Ha Hw. rewrite create_accepted by auto. unfold create_body.
  destruct w as [[d|] [k|] [l|]]; try reflexivity. contradiction Hw. reflexivity.
Qed.

(** Failing operations. *)
Lemma steps_bind_inv ordf {A B} (p : prog A) : forall (f : A -> prog B) w S o k w1 S1,
  steps ordf (bind p f) w S (Do o k) w1 S1 ->
  (exists k', steps ordf p w S (Do o k') w1 S1 /\ k = fun r => bind (k' r) f) \/
  (exists a w2 S2, steps ordf p w S (Ret a) w2 S2 /\ run p w = (w2, a) /\ steps ordf (f a) w2 S2 (Do o k) w1 S1).
Proof.
  induction p as [a|o0 k0 IH]; intros f w S o k w1 S1 H.
  - right. exists a, w, S. splits; auto. constructor.
  - cbn [bind] in H. inversion H as [|? ? ? ? ? ? ? H']; subst.
    + left. exists k0. split; [constructor|reflexivity].
    + destruct (IH _ _ _ _ _ _ _ _ H') as [(k' & H1 & ->)|(b & w2 & S2 & H1 & H2 & H3)].
      * left. exists k'. split; [constructor; auto|reflexivity].
      * right. exists b, w2, S2. splits; auto; [constructor; auto|]. rewrite run_do. auto.
Qed.

Definition is_erase (o : io) : Prop := match o with IoErase _ => True | _ => False end.
Lemma fail_erases a b c er : allops is_erase anyres (create_fail a b c er).
Proof.
  unfold create_fail, erase_quiet, p_erase, do_unit.
  destruct a, b, c; cbn [bind]; repeat (constructor; [exact I|]; intros [?|? ?]; cbn [bind]); constructor; exact I.
Qed.

Lemma strict_fill e a : strict (create_fill e a).
Proof.
  unfold create_fill, write_key_header, bk_write, p_write, p_sync.
  destruct (lf_field (ca_load_factor a)); [|constructor].
  apply strict_bind; [apply strict_unit| |reflexivity]. intros [[]|]; [|constructor].
  apply strict_bind; [destruct (_ <? _); [constructor|apply strict_unit]| |reflexivity]. intros [[]|]; [|constructor].
  apply strict_bind; [apply strict_unit| |reflexivity]. intros [[]|]; [|constructor].
  apply strict_bind; [apply strict_unit| |reflexivity]. intros [[]|]; [|constructor].
  apply strict_bind; [apply strict_unit| |reflexivity]. intros [[]|]; [|constructor].
  apply strict_unit.
Qed.

Lemma fail_all er w : run (create_fail true true true er) w = (no_files, Er er).
Proof. destruct w as [[d|] [k|] [l|]]; reflexivity. Qed.

Lemma no_steps_ret ordf {A} (a : A) w S o k w1 S1 : steps ordf (Ret a) w S (Do o k) w1 S1 -> False.
Proof. intros H. inversion H. Qed.

Ltac fail_path H Ho :=
  apply steps_allops with (P := is_erase) (R := anyres) in H; [|apply fail_erases];
  inversion H; subst; exfalso; apply Ho; assumption.

Lemma create_undone ordf e a w S o k w1 S1 n w2 :
  steps ordf (create e a) w S (Do o k) w1 S1 -> ~ is_erase o ->
  match o with IoCreate _ => w2 = w1 | _ => True end ->
  run (k (RErr (EIO n))) w2 = (w, Er (EIO n)).
Proof.
  intros Hs Ho Hc. destruct (first_failed (arg_checks a)) as [er|] eqn:Ea.
  { exfalso. clear - Hs Ea. unfold create in Hs. unfold arg_checks in Ea. cbn [first_failed] in Ea.
    rewrite capacity_104, lt1, lf_check in Hs.
    destruct (1 <=? ca_key_size a); cbn [negb] in Hs; [|eapply no_steps_ret; exact Hs].
    destruct (N.leb_spec (ca_block_size a) 65535), (N.ltb_spec 65535 (ca_block_size a)); try lia;
      [|eapply no_steps_ret; exact Hs].
    destruct (load_factor_ok (ca_load_factor a)); cbn [negb] in *; [|eapply no_steps_ret; exact Hs].
    destruct (N.leb_spec 104 (ca_block_size a)), (N.ltb_spec (ca_block_size a) 104); try lia;
    [discriminate Ea|eapply no_steps_ret; exact Hs]. }
  rewrite create_accepted in Hs by auto. unfold create_body in Hs.
  assert (U : forall f (K : res unit -> prog (res unit)) w S, steps ordf (bind (p_create f) K) w S (Do o k) w1 S1 ->
    (o = IoCreate f /\ w1 = w /\ k (RErr (EIO n)) = K (Er (EIO n))) \/
    (exists w' S', steps ordf (K (match wget w f with Some _ => Er EExist | None => Ok tt end)) w' S' (Do o k) w1 S1 /\
       w' = match wget w f with Some _ => w | None => wset w f (Some []) end)).
  { clear. intros f K w S H. unfold p_create, do_unit in H. cbn [bind] in H. inversion H as [|? ? ? ? ? ? ? H']; subst.
    - left. splits; reflexivity.
    - right. cbn [exec] in H'. destruct (wget w f); cbn [fst snd bind] in H'; eauto. }
  apply U in Hs as [(-> & -> & E)|(w' & S' & Hs & ->)].
  { subst w2. rewrite E. reflexivity. }
  destruct (wget w FDat) as [c|] eqn:Ed; [fail_path Hs Ho|].
  apply U in Hs as [(-> & -> & E)|(w' & S2' & Hs & ->)].
  { subst w2. rewrite E. destruct w as [wd [wk|] [wl|]]; unfold wget in Ed; cbn [w_dat] in Ed; subst; reflexivity. }
  rewrite wget_wset_other in Hs by discriminate.
  destruct (wget w FKey) as [c|] eqn:Ek; [fail_path Hs Ho|].
  apply U in Hs as [(-> & -> & E)|(w' & S3' & Hs & ->)].
  { subst w2. rewrite E. destruct w as [wd wk [wl|]]; unfold wget in *; cbn [w_dat w_key] in *; subst; reflexivity. }
  rewrite !wget_wset_other in Hs by discriminate.
  destruct (wget w FLog) as [c|] eqn:El; [fail_path Hs Ho|].
  assert (Hw : w = no_files) by (destruct w as [wd wk wl]; unfold wget in *; cbn [w_dat w_key w_log] in *; subst; reflexivity).
  apply steps_bind_inv in Hs as [(k' & Hs & ->)|(r & w' & S4 & _ & _ & Hs)].
  - pose proof (steps_strict _ _ _ _ _ _ _ Hs (strict_fill e a)) as Hst. inversion Hst as [|? ? Hk _]; subst.
    rewrite Hk. cbn [bind]. apply fail_all.
  - exfalso. destruct r as [[]|er]; [eapply no_steps_ret; exact Hs|].
    assert (Hs' : er = EUB \/ steps ordf (create_fail true true true er) w' S4 (Do o k) w1 S1)
      by (destruct er; auto). destruct Hs' as [-> |Hs']; [eapply no_steps_ret; exact Hs|].
    fail_path Hs' Ho.
Qed.

(** A new database. *)
Lemma repeat_add {A} (x : A) n m : repeat x (n + m) = repeat x n ++ repeat x m.
Proof. apply repeat_app. Qed.

Lemma create_new e a : good_args a -> iter_ok e ->
  exists n d w s, ca_load_factor a = FVal n d /\
    run (create e a) no_files =
      (World (Some (new_dat a)) (Some (new_key (e_hasher e) a (Z.to_N (65536 * n / Z.pos d)))) (Some []), Ok tt) /\
    lived e a [] w s /\
    w = World (Some (new_dat a)) (Some (new_key (e_hasher e) a (Z.to_N (65536 * n / Z.pos d)))) (Some []) /\
    kh_key_size (st_kh s) = ca_key_size a /\ kh_block_size (st_kh s) = ca_block_size a /\
    kh_appnum (st_kh s) = ca_appnum a /\ kh_uid (st_kh s) = ca_uid a /\ kh_salt (st_kh s) = ca_salt a.
Proof.
  intros Ha Hit. destruct (good_args_ok a Ha) as (Hp & Hi & Hf & Haa).
  pose proof (create_ok e (dbp_of a) _ no_files Hp Hi Hf eq_refl eq_refl eq_refl) as Hc.
  rewrite Haa in Hc.
  pose proof Ha as (_ & _ & _ & _ & Hb & Hlf).
  destruct (ca_load_factor a) as [|n d] eqn:El; [contradiction|].
  set (lf := Z.to_N (65536 * n / Z.pos d)).
  assert (Hn : db_load_factor (dbp_of a) = lf).
  { unfold dbp_of. cbn [db_load_factor]. rewrite El. cbn [lf_field]. fold lf. apply N.min_l.
    unfold lf. assert (65536 * n / Z.pos d < 65536)%Z by (apply Z.div_lt_upper_bound; lia). lia. }
  assert (HW : new_world e (dbp_of a) = World (Some (new_dat a)) (Some (new_key (e_hasher e) a lf)) (Some [])).
  { unfold new_world. f_equal.
    - unfold db_hdr, db_dh, enc_dat_header, new_dat, dbp_of. cbn [db_uid db_appnum db_key_size dh_version dh_uid dh_appnum dh_key_size].
      rewrite !wr16_be, !wr64_be. reflexivity.
    - f_equal. unfold kfile, db_kb. cbn [flat_map kblock]. unfold kblock. cbn [fst snd]. rewrite app_nil_r.
      unfold enc_key_header_block, enc_key_header, new_key, db_kh.
      cbn [kh_version kh_uid kh_appnum kh_key_size kh_salt kh_pepper kh_block_size kh_load_factor].
      rewrite Hn. rewrite !wr16_be, !wr64_be, pepper_fingerprint. unfold dbp_of.
      cbn [db_uid db_appnum db_key_size db_salt db_block_size].
      assert (HB : enc_block (ca_block_size a) [] 0 = repeat 0 (N.to_nat (ca_block_size a))).
      { unfold enc_block, enc_bucket. change (bucket_size (blen (@nil entry))) with 8.
        replace (N.to_nat (ca_block_size a)) with (8 + N.to_nat (ca_block_size a - 8))%nat by lia.
        rewrite repeat_add. reflexivity. }
      rewrite HB, !repeat_add. unfold zeros, key_hdr_size. rewrite <- !app_assoc. reflexivity. }
  destruct (open_ok e (dbp_of a) Hp [] [([], 0)] (new_world e (dbp_of a)) (new_disk e _ Hp)) as [Ho Hs].
  { right. exists []. split; reflexivity. }
  exists n, d. fold lf. do 2 eexists. splits; [reflexivity|rewrite <- HW; exact Hc| |rewrite <- HW; reflexivity|..].
  1:{ exists []. unfold life. rewrite Hc, Ho. reflexivity. }
  all: reflexivity.
Qed.

Lemma new_is_empty e a w s k :
  good_args a -> iter_ok e -> lived e a [] w s -> blen k = ca_key_size a ->
  run (store_fetch e s k) w = (w, Er key_not_found).
Proof. intros Ha Hit Hl Hk. eapply no_false_hits; eauto; constructor. Qed.

Lemma failure_undone ordf e a w S o k w1 S1 n w2 :
  steps ordf (create e a) w S (Do o k) w1 S1 -> (forall f, o <> IoErase f) ->
  match o with IoCreate _ => w2 = w1 | _ => True end ->
  run (k (RErr (EIO n))) w2 = (w, Er (EIO n)).
Proof.
  intros Hs Ho Hc. eapply create_undone; eauto. intros X. destruct o; try contradiction. eapply Ho; reflexivity.
Qed.
