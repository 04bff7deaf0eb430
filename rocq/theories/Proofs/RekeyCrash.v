(** Stopping rekey(). *)
From Verif Require Import Model.Bytes Model.Err Model.Field Model.Format Model.IO
  Model.BulkIO Model.Bucket Model.Recover Model.Create Model.Store Model.Crash Model.Rekey
  SpecHeader
  Proofs.BytesFacts Proofs.FieldFacts Proofs.IOFacts Proofs.BucketFacts
  Proofs.BulkFacts Proofs.HashFacts Proofs.Table Proofs.Lookup Proofs.SplitFacts
  Proofs.CommitFacts Proofs.CommitInv Proofs.CommitRun Proofs.HeaderFacts Proofs.SafeFacts
  Proofs.CommitOps Proofs.CrashFacts Proofs.StoreInv Proofs.OpenFacts Proofs.RecoverFacts
  Proofs.RefuseFacts Proofs.CreateFacts Proofs.RekeyRun.

Opaque loop.
Local Notation ord := log_in_order.

(** ** Operations while the buckets are built *)
Definition rk_op (o : io) : Prop :=
  app_to FDat o \/ exists off d, o = IoWrite FKey false off d.

Lemma ao_ops {A} (R : A -> Prop) (p : prog A) : allops (app_to FDat) R p -> allops rk_op R p.
Proof. intros H. eapply ao_weaken; [exact H| |auto]. intros o Ho. left. exact Ho. Qed.

Lemma ops_br_prepare f r n : allops (app_to f) (okres anyres) (br_prepare r n).
Proof.
  unfold br_prepare. cbv zeta. apply (ao_ebind _ anyres); [|intros; ops].
  destruct (blen (br_avail r) <? n); [|ops]. destruct (br_last r <? _); [ops|].
  apply (ao_ebind _ anyres); [ops|]. intros d _. ops.
Qed.

Lemma ops_step e kh b0 bn work total st : writer_to FDat (snd (fst st)) ->
  allops rk_op (fun r => match r with
    | inl s => writer_to FDat (snd (fst s))
    | inr x => okres (fun x => writer_to FDat (snd x)) x end) (rekey_step e kh b0 bn work total st).
Proof.
  intros Hw. destruct st as [[[t buf] dw] r]. cbn [fst snd] in Hw. unfold rekey_step.
  destruct (br_eof r); [constructor; exact Hw|].
  eapply ao_bind; [apply ao_ops, ops_br_prepare|]. intros [[is r1]|er] _; [|constructor; exact I].
  cbv zeta. destruct (0 <? rd_size48 is).
  - eapply ao_bind; [apply ao_ops, ops_br_prepare|]. intros [[is2 r2]|er] _; [|constructor; exact I].
    destruct (_ || _); [constructor; exact Hw|].
    eapply ao_bind.
    + apply ao_ops. eapply ao_ebind; [apply ops_maybe_spill; exact Hw|]. intros [b dw1] H1. cbv beta iota.
      eapply (ao_ebind _ anyres); [apply ao_lift; destruct (bk_insert _ _ _ _); exact I|].
      intros b2 _. apply ao_pret. instantiate (1 := fun x => writer_to FDat (snd x)). exact H1.
    + intros [[b dw1]|er] H1; constructor; [exact H1|exact I].
  - eapply ao_bind; [apply ao_ops, ops_br_prepare|]. intros [[is2 r2]|er] _; [|constructor; exact I].
    eapply ao_bind; [apply ao_ops, ops_br_prepare|]. intros [[is3 r3]|er] _; [|constructor; exact I].
    constructor. exact Hw.
Qed.

Lemma ops_pass e kh D c total st : writer_to FDat (snd st) ->
  allops rk_op (fun r => match r with
    | inl s => writer_to FDat (snd s)
    | inr x => okres (fun x => writer_to FDat (snd x)) x end) (rekey_pass e kh D c total st).
Proof.
  intros Hw. destruct st as [[b0 t] dw]. cbn [snd] in Hw. unfold rekey_pass.
  destruct (kh_buckets kh <=? b0); [constructor; exact Hw|]. cbv zeta.
  eapply ao_bind.
  - apply (ao_loop rk_op (fun s => writer_to FDat (snd (fst s))) (fun x => writer_to FDat (snd x))).
    + intros s Hs. apply ops_step. exact Hs.
    + exact Hw.
  - intros [[[t1 buf] dw1]|er] H1; [|constructor; exact I]. cbn [okres snd] in H1.
    eapply ao_bind; [apply (ao_unit rk_op); right; eauto|].
    intros [[]|er] _; constructor; [exact H1|exact I].
Qed.

Lemma safe_inv_res (G : world -> Prop) (P : io -> Prop) (I : world -> surv -> Prop) {A} (R : A -> Prop) :
  (forall o w S, P o -> I w S -> I (fst (exec o w)) (sexec ord o w S)) ->
  (forall w S, I w S -> forall v, on_disk S v -> G v) ->
  forall (p : prog A) w S, allops P R p -> I w S -> safe ord G p w S (fun a w' S' => R a /\ I w' S').
Proof.
  intros HI HG p. induction p as [b|o k IH]; intros w S Ha Hi; inversion Ha; subst; simpl.
  - split; auto. apply (HG _ _ Hi).
  - split; [apply (HG _ _ Hi)|]. apply IH; auto.
Qed.

(** [G] holds at every point before the program has succeeded. *)
Definition until (G : world -> Prop) {A} (p : prog (res A)) (w : world) (S : surv) : Prop :=
  forall p1 w1 S1, steps ord p w S p1 w1 S1 -> (forall t, p1 <> Ret (Ok t)) -> forall v, on_disk S1 v -> G v.

Lemma until_ebind G {A B} (p : prog (res A)) (f : A -> prog (res B)) : forall w S Q,
  safe ord G p w S Q -> (forall a w1 S1, Q (Ok a) w1 S1 -> until G (f a) w1 S1) -> until G (ebind p f) w S.
Proof.
  unfold ebind. induction p as [[a|er]|o k IH]; intros w S Q Hs Hf; cbn [bind safe] in *.
  - apply Hf, Hs.
  - intros p1 w1 S1 Hst _. inversion Hst; subst. apply Hs.
  - intros p1 w1 S1 Hst Hn v Hv. inversion Hst as [|? ? ? ? ? ? ? Hst']; subst; [apply (proj1 Hs); exact Hv|].
    exact (IH _ _ _ _ (proj2 Hs) Hf _ _ _ Hst' Hn v Hv).
Qed.

Lemma rd64_lt l : bytes_ok l -> blen l = 8 -> rd64 l < 18446744073709551616.
Proof.
  intros H E.
  destruct l as [|a [|b [|c [|d [|x [|y [|z [|u [|v l]]]]]]]]]; unfold blen in E; simpl in E; try lia.
  repeat match goal with h : bytes_ok (_ :: _) |- _ => inversion h; clear h; subst
    | h : Forall _ (_ :: _) |- _ => inversion h; clear h; subst end.
  rewrite rd64_list by auto. lia.
Qed.

Section Stop.
Variables (e : env) (a : rekey_args) (lf nb : N) (d0 : bytes).
Hypothesis Ha : rekey_ready a lf nb.
Hypothesis (Dok : bytes_ok d0) (Dl : 92 <= blen d0) (Db : blen d0 < 18446744073709551616).
Hypothesis Dchk : first_failed (dat_checks d0) = None.
Notation D := (blen d0).

Definition rc_kh : key_header := rekey_key_header e a (dh_of d0) lf nb.
Definition rc_log : bytes := enc_log_header (rekey_log_header rc_kh D).

Lemma dh_bounds : dh_uid (dh_of d0) < 18446744073709551616 /\ dh_appnum (dh_of d0) < 18446744073709551616 /\
  dh_key_size (dh_of d0) < 65536.
Proof using All.
  unfold dh_of, dec_dat_header, dat_hdr_size. cbn [dh_uid dh_appnum dh_key_size].
  assert (B : blen (bsub 0 92 d0) = 92) by (apply blen_bsub; lia).
  splits; [apply rd64_lt|apply rd64_lt|apply rd16_lt]; auto using bytes_ok_bsub; apply blen_bsub; rewrite B; lia.
Qed.

Lemma dat_ok : verify_dat (dh_of d0) = Ok tt.
Proof using All. rewrite dat_verdict by auto. unfold verdict. rewrite Dchk. reflexivity. Qed.

Lemma ks_pos : 1 <= dh_key_size (dh_of d0).
Proof using All.
  pose proof dat_ok as H. unfold verify_dat in H.
  destruct (negb _); [discriminate|]. destruct (negb _); [discriminate|].
  destruct (N.ltb_spec (dh_key_size (dh_of d0)) 1); [discriminate|auto].
Qed.

Lemma rc_fits : log_fits (rekey_log_header rc_kh D).
Proof using All.
  pose proof dh_bounds as (H1 & H2 & H3). destruct Ha as (A1 & A2 & A3 & A4 & A5 & A6 & A7 & A8).
  unfold log_fits, rekey_log_header, rc_kh, rekey_key_header.
  cbn [lh_version lh_uid lh_appnum lh_key_size lh_salt lh_pepper lh_block_size lh_key_file_size lh_dat_file_size
    kh_uid kh_appnum kh_key_size kh_salt kh_pepper kh_block_size].
  splits; auto; try lia; try apply pepper_lt. reflexivity.
Qed.

Lemma blen_rc_log : blen rc_log = log_hdr_size.
Proof using All. apply blen_log_header. Qed.

Definition rc_lh : log_header :=
  LogHeader magic_log currentVersion (dh_uid (dh_of d0)) (dh_appnum (dh_of d0)) (dh_key_size (dh_of d0))
    (ra_salt a) (pepper (e_hasher e) (ra_salt a)) (ra_block_size a) 0 D.

Lemma run_rc_log w : wget w FLog = Some rc_log -> run read_log_header w = (w, Ok rc_lh).
Proof using All.
  intros H. rewrite (run_read_log_header w (rekey_log_header rc_kh D) []).
  - reflexivity.
  - apply rc_fits.
  - rewrite app_nil_r. exact H.
Qed.

Lemma rc_verify : verify_log (e_hasher e) rc_lh = Ok tt.
Proof using All.
  unfold verify_log, rc_lh. cbn [lh_type lh_version lh_pepper lh_salt lh_key_size].
  change (beq magic_log magic_log) with true. change (currentVersion =? currentVersion) with true.
  rewrite N.eqb_refl. cbn [negb]. pose proof ks_pos as H.
  replace (dh_key_size (dh_of d0) <? 1) with false by lia. reflexivity.
Qed.

Lemma run_rc_dat w x : wget w FDat = Some (d0 ++ x) -> run read_dat_header w = (w, Ok (dh_of d0)).
Proof using All.
  intros H. unfold read_dat_header.
  erewrite run_ebind_ok by (apply run_header; [exact H|rewrite blen_app; unfold dat_hdr_size; lia]).
  rewrite bsub_app_l by (unfold dat_hdr_size; lia). reflexivity.
Qed.


(** ** What may be found *)
(** Nothing, or at most a header, has been written to the key file. *)
Definition rk_begun (w : world) : Prop :=
  wget w FDat = Some d0 /\
  ((wget w FKey = None /\ wget w FLog = None) \/
   (exists k, wget w FKey = Some k /\ blen k <= 104 /\
      (wget w FLog = None \/ exists n, wget w FLog = Some (btake n rc_log)))).
Definition rk_logged (w : world) : Prop :=
  exists x k, wget w FDat = Some (d0 ++ x) /\ wget w FKey = Some k /\ 104 < blen k /\
    wget w FLog = Some rc_log.
Definition rk_mid (w : world) : Prop := rk_begun w \/ rk_logged w.

(** While the buckets are built. *)
Definition rk_inv (w : world) (S : surv) : Prop :=
  (exists x, wget w FDat = Some x /\ pref d0 x) /\ (exists k, wget w FKey = Some k /\ 104 < blen k) /\
  wget w FLog = Some rc_log /\
  (forall c, S FDat c -> exists y, c = Some y /\ pref d0 y) /\
  (forall c, S FKey c -> exists k, c = Some k /\ 104 < blen k) /\
  (forall c, S FLog c -> c = Some rc_log).

Lemma rk_inv_mid w S v : rk_inv w S -> on_disk S v -> rk_mid v.
Proof using All.
  intros (_ & _ & _ & A & B & C) Hv. right.
  destruct (A _ (Hv FDat)) as (y & V1 & t & ->). destruct (B _ (Hv FKey)) as (k & V2 & Hk).
  exists t, k. split; [exact V1|]. split; [exact V2|]. split; [exact Hk|]. apply C, Hv.
Qed.

Lemma rk_inv_op o w S : rk_op o -> rk_inv w S -> rk_inv (fst (exec o w)) (sexec ord o w S).
Proof using All.
  intros [Ho|(off & d & ->)] ((x & W1 & Px) & (k & W2 & Hk) & W3 & A & B & C).
  - destruct (app_exec _ _ _ _ Ho W1) as (y & Hy & Hxy). unfold rk_inv.
    rewrite (app_other FDat FKey), (app_other FDat FLog) by (auto; discriminate).
    rewrite (app_surv_other FDat FKey), (app_surv_other FDat FLog) by (auto; discriminate).
    splits; auto.
    + exists y. split; auto. eapply pref_trans; eauto.
    + exists k. auto.
    + eapply (app_surv FDat); eauto.
  - unfold rk_inv. cbn [exec sexec]. rewrite W2. cbn [andb fst].
    rewrite wget_wset_same, !wget_wset_other by discriminate. cbn [sset fname_eqb log_in_order].
    splits; eauto.
    + eexists; split; [reflexivity|]. rewrite blen_bwrite_max. lia.
    + intros c [H|(y & y' & Hy & -> & Ht & _)]; auto. exists y'. split; auto.
      destruct (B _ Hy) as (k' & E & Hk'). injection E as <-. lia.
Qed.

(** Creating key and log file. *)
Lemma rk_create_safe w :
  wget w FDat = Some d0 -> wget w FKey = None -> wget w FLog = None ->
  safe ord rk_mid (rekey_create rc_kh D) w (durable w)
    (fun r w' S' => match r with Ok _ => rk_inv w' S' | Er _ => True end).
Proof using All.
  intros W1 W2 W3. unfold rekey_create.
  set (hk := enc_key_header rc_kh). set (bk := enc_key_header_block rc_kh).
  fold rc_log.
  assert (Lh : blen hk = 104) by apply blen_key_header.
  pose proof Ha as (A1 & A2 & A3 & A4 & A5 & A6 & A7 & A8).
  assert (Lb : blen bk = ra_block_size a).
  { unfold bk. rewrite blen_key_header_block; [reflexivity|]. exact A2. }
  set (off := ((kh_buckets rc_kh + 1) mod 18446744073709551616 * kh_block_size rc_kh + 18446744073709551615)
       mod 18446744073709551616).
  assert (Eoff : off = (nb + 1) * ra_block_size a - 1).
  { unfold off, rc_kh, rekey_key_header. cbn [kh_buckets kh_block_size].
    rewrite (N.mod_small (nb + 1)) by nia. symmetry. apply N.mod_unique with (q := 1); nia. }
  assert (Hoff : 208 <= off + 1) by (rewrite Eoff; nia).
  clearbody off hk bk.
  unfold ebind, p_create, p_write, p_sync, do_unit.
  cbn [bind safe sexec exec fst snd]. rewrite W2.
  cbn [bind safe sexec exec fst snd]. rewrite wget_wset_same. cbn [andb].
  cbn [bind safe sexec exec fst snd]. rewrite wget_wset_same.
  cbn [bind safe sexec exec fst snd]. rewrite !wget_wset_other by discriminate. rewrite W3.
  cbn [bind safe sexec exec fst snd]. rewrite wget_wset_same. change (true && negb (0 =? blen (@nil N))) with false. cbv iota.
  cbn [bind safe sexec exec fst snd]. rewrite wget_wset_same.
  cbn [bind safe sexec exec fst snd]. rewrite !wget_wset_other by discriminate. rewrite !wget_wset_same. cbn [andb].
  cbn [bind safe sexec exec fst snd]. rewrite wget_wset_same.
  cbn [bind safe sexec exec fst snd]. rewrite wget_wset_same. cbn [andb].
  cbn [bind safe sexec exec fst snd]. rewrite wget_wset_same.
  cbn [bind safe sexec exec fst snd].
  assert (Eh : bwrite 0 hk [] = hk) by (rewrite bwrite_end by reflexivity; reflexivity). rewrite !Eh.
  assert (El : forall l, bwrite 0 l [] = l) by (intros; rewrite bwrite_end by reflexivity; reflexivity). rewrite !El.
  assert (D1 : forall c, durable w FDat c -> c = Some d0) by (intros c H; rewrite <- W1; exact H).
  assert (D2 : forall c, durable w FKey c -> c = None) by (intros c H; rewrite <- W2; exact H).
  assert (D3 : forall c, durable w FLog c -> c = None) by (intros c H; rewrite <- W3; exact H).
  assert (Beg : forall v k, wget v FDat = Some d0 -> wget v FKey = Some k -> blen k <= 104 ->
    (wget v FLog = None \/ exists n, wget v FLog = Some (btake n rc_log)) -> rk_mid v).
  { intros v k V1 V2 V3 V4. left. split; auto. right. eauto. }
  assert (Full : Some rc_log = Some (btake (blen rc_log) rc_log)) by (rewrite btake_all by lia; auto).
  assert (Log : forall v k, wget v FDat = Some d0 -> wget v FKey = Some k -> 104 <= blen k ->
    wget v FLog = Some rc_log -> rk_mid v).
  { intros v k V1 V2 V3 V4. destruct (N.eq_dec (blen k) 104) as [E|E].
    - apply (Beg v k); auto; [lia|]. right. exists (blen rc_log). rewrite V4. exact Full.
    - right. exists [], k. rewrite app_nil_r. splits; auto. lia. }
  assert (Lb2 : forall y', torn_write 0 (blen bk) hk y' -> 104 <= blen y') by (intros y' [[H _] _]; lia).
  assert (L1 : blen (bwrite 0 bk hk) = ra_block_size a) by (rewrite blen_bwrite_max; lia).
  assert (Lb3 : forall y', torn_write off 1 (bwrite 0 bk hk) y' -> 104 <= blen y') by (intros y' [[H _] _]; lia).
  assert (Lb4 : 104 < blen (bwrite off [0] (bwrite 0 bk hk))).
  { rewrite blen_bwrite_max. change (blen [0]) with 1. lia. }
  Ltac vs Hv V1 V2 V3 := intros v Hv; pose proof (Hv FDat) as V1; pose proof (Hv FKey) as V2; pose proof (Hv FLog) as V3;
    cbn [sset fname_eqb log_in_order] in V1, V2, V3.
  splits.
  - vs Hv V1 V2 V3. left. split; auto.
  - vs Hv V1 V2 V3. destruct V2 as [V2|V2]; [left; split; auto|]. eapply Beg; eauto. vm_compute. discriminate.
  - vs Hv V1 V2 V3. destruct V2 as [[V2|V2]|(y & y' & Hy & V2 & Ht & _)]; [left; split; auto| |].
    + eapply Beg; eauto. vm_compute. discriminate.
    + eapply Beg; eauto. destruct Hy as [Hy|Hy]; [apply D2 in Hy; discriminate|]. injection Hy as ->.
      change (blen (@nil N)) with 0 in Ht. lia.
  - vs Hv V1 V2 V3. eapply Beg; eauto. lia.
  - vs Hv V1 V2 V3. eapply Beg; eauto; [lia|]. destruct V3 as [V3|V3]; auto. right. exists 0. rewrite btake_0. exact V3.
  - vs Hv V1 V2 V3. eapply Beg; eauto; [lia|]. destruct V3 as [[V3|V3]|(n & V3)]; auto.
    + right. exists 0. rewrite btake_0. exact V3.
    + right. exists n. rewrite El in V3. exact V3.
  - vs Hv V1 V2 V3. eapply Log; eauto. lia.
  - vs Hv V1 V2 V3. destruct V2 as [V2|(y & y' & Hy & V2 & Ht)].
    + eapply Log; eauto. lia.
    + injection Hy as ->. eapply Log; eauto.
  - vs Hv V1 V2 V3. eapply Log; eauto. lia.
  - vs Hv V1 V2 V3. destruct V2 as [V2|(y & y' & Hy & V2 & Ht)].
    + eapply Log; eauto. lia.
    + injection Hy as ->. eapply Log; eauto.
  - vs Hv V1 V2 V3. eapply Log; eauto. lia.
  - unfold rk_inv. cbn [sset fname_eqb].
    rewrite wget_wset_same, !wget_wset_other by discriminate. rewrite wget_wset_same. splits; auto.
    + exists d0. split; auto. apply pref_refl.
    + eauto.
    + intros c Hc. exists d0. split; [auto|apply pref_refl].
    + intros c ->. eauto.
Qed.

Lemma ops_pure_ebind {A B} (p : prog (res A)) (f : A -> prog (res B)) :
  allops io_pure (okres anyres) p -> (forall a, allops io_pure (okres anyres) (f a)) ->
  allops io_pure (okres anyres) (ebind p f).
Proof using. clear. intros Hp Hf. eapply (ao_ebind _ anyres); auto. Qed.

Lemma ops_start : allops io_pure anyres rekey_start.
Proof using.
  clear. eapply ao_weaken with (R := okres anyres) (P := io_pure); [|auto|intros; exact I]. unfold rekey_start, read_dat_header.
  apply ops_pure_ebind; [apply ao_unit; exact I|intros _].
  apply ops_pure_ebind; [apply ops_pure_ebind; [apply ao_data; exact I|intros; apply ao_pret; exact I]|intros dh].
  apply ops_pure_ebind; [apply ao_lift; destruct (verify_dat dh); exact I|intros _].
  apply ops_pure_ebind; [apply ao_num; exact I|intros s].
  eapply ao_bind; [apply ao_unit; exact I|]. intros [[]|er] _; [apply ao_pfail|].
  destruct er; first [apply ao_pfail | apply ao_pret; exact I].
Qed.

Lemma run_rc_start w : wget w FDat = Some d0 -> wget w FLog = None ->
  run rekey_start w = (w, Ok (dh_of d0, D)).
Proof using All.
  intros W1 W3. unfold rekey_start. assert (W1' : wget w FDat = Some (d0 ++ [])) by (rewrite app_nil_r; exact W1).
  rewrite (run_ebind_ok _ _ _ _ _ (run_open _ _ _ W1)), (run_ebind_ok _ _ _ _ _ (run_rc_dat _ _ W1')), dat_ok.
  erewrite run_ebind_ok by reflexivity.
  rewrite (run_ebind_ok _ _ _ _ _ (run_size _ _ _ W1)), (run_bind_eq _ _ _ _ _ (run_open_none _ _ W3)). reflexivity.
Qed.

(** While rekey() has not succeeded. *)
Lemma rekey_until w :
  wget w FDat = Some d0 -> wget w FKey = None -> wget w FLog = None ->
  until rk_mid (rekey e a) w (durable w).
Proof using All.
  intros W1 W2 W3. pose proof Ha as (A1 & A2 & A3 & A4 & A5 & A6 & A7 & A8). unfold rekey.
  assert (G0 : forall v, on_disk (durable w) v -> rk_mid v).
  { intros v Hv. left. split; [rewrite (Hv FDat); exact W1|]. left. rewrite (Hv FKey), (Hv FLog). auto. }
  eapply until_ebind; [apply safe_with_run, safe_pure; [apply ops_start|exact G0]|].
  cbv beta. intros [dh size] w1 S1 ((-> & ->) & Hr & _). rewrite (run_rc_start _ W1 W3) in Hr.
  injection Hr as <- <-. rewrite A4, A6. pose proof (cap_104 _ A2) as Q.
  replace (bucket_capacity (ra_block_size a) =? 0) with false by lia. cbv zeta.
  eapply until_ebind; [apply (rk_create_safe w W1 W2 W3)|]. cbv beta iota. intros _ w1 S1 Hi.
  fold rc_kh. unfold rekey_build. cbv zeta.
  eapply until_ebind.
  { apply (safe_inv_res rk_mid rk_op rk_inv (okres (fun x => writer_to FDat (snd x)))).
    - apply rk_inv_op.
    - intros w2 S2 H2 v Hv. eapply rk_inv_mid; eauto.
    - apply (ao_loop rk_op (fun s => writer_to FDat (snd s)) (fun x => writer_to FDat (snd x))).
      + intros s Hs. apply ops_pass. exact Hs.
      + split; reflexivity.
    - exact Hi. }
  cbv beta. intros [t dw] w2 S2 [Hw Hi2]. cbn [okres snd] in Hw.
  eapply until_ebind.
  { apply (safe_inv' ord rk_mid rk_op rk_inv).
    - apply rk_inv_op.
    - intros w3 S3 H3 v Hv. eapply rk_inv_mid; eauto.
    - eapply ao_weaken with (R := okres (writer_to FDat)); [apply ao_ops, ops_bw_flush; exact Hw|auto|intros; exact I].
    - exact Hi2. }
  cbv beta. intros _ w3 S3 Hi3. unfold p_erase, do_unit, ebind. cbn [bind].
  intros p1 w4 S4 Hst Hn v Hv. inversion Hst as [|? ? ? ? ? ? ? Hst']; subst.
  - eapply rk_inv_mid; eauto.
  - destruct Hi3 as (_ & _ & L & _). cbn [exec] in Hst'. rewrite L in Hst'. cbn [fst snd bind] in Hst'.
    inversion Hst'; subst. exfalso. exact (Hn _ eq_refl).
Qed.

(** ** Recovery *)
Lemma run_recover_logged w x k :
  wget w FDat = Some (d0 ++ x) -> wget w FKey = Some k -> 104 < blen k -> wget w FLog = Some rc_log ->
  run (recover e) w = (World (Some d0) None None, Ok tt).
Proof using All.
  intros W1 W2 Hk W3. unfold recover.
  rewrite (run_ebind_ok _ _ _ _ _ (run_open _ _ _ W1)), (run_ebind_ok _ _ _ _ _ (run_size _ _ _ W1)),
    (run_ebind_ok _ _ _ _ _ (run_rc_dat _ _ W1)), dat_ok.
  erewrite run_ebind_ok by reflexivity.
  rewrite (run_ebind_ok _ _ _ _ _ (run_open _ _ _ W2)), (run_ebind_ok _ _ _ _ _ (run_size _ _ _ W2)).
  replace (blen k <=? key_hdr_size) with false by (symmetry; apply N.leb_gt; exact Hk).
  rewrite (run_bind_eq _ _ _ _ _ (run_open _ _ _ W3)), (run_ebind_ok _ _ _ _ _ (run_size _ _ _ W3)).
  rewrite (run_bind_eq _ _ _ _ _ (run_rc_log _ W3)), rc_verify. erewrite run_ebind_ok by reflexivity.
  change (lh_key_file_size rc_lh =? 0) with true. cbv iota. erewrite run_ebind_ok by reflexivity.
  unfold recover_trunc_files, recover_clear_log. change (lh_key_file_size rc_lh =? 0) with true.
  change (lh_dat_file_size rc_lh) with D. cbn [negb]. cbv iota.
  erewrite run_ebind_ok.
  2: { erewrite run_ebind_ok by (apply run_trunc; exact W1). rewrite btrunc_pref.
       erewrite run_ebind_ok by (eapply run_sync; apply wget_wset_same).
       eapply run_erase. rewrite wget_wset_other by discriminate. exact W2. }
  erewrite run_ebind_ok by (eapply run_trunc; rewrite !wget_wset_other by discriminate; exact W3).
  erewrite run_ebind_ok by (eapply run_sync; apply wget_wset_same).
  erewrite run_erase by apply wget_wset_same. destruct w; reflexivity.
Qed.

Lemma run_recover_no_key w x :
  wget w FDat = Some (d0 ++ x) -> wget w FKey = None -> run (recover e) w = (w, Er ENoEnt).
Proof using All.
  intros W1 W2. unfold recover.
  rewrite (run_ebind_ok _ _ _ _ _ (run_open _ _ _ W1)), (run_ebind_ok _ _ _ _ _ (run_size _ _ _ W1)),
    (run_ebind_ok _ _ _ _ _ (run_rc_dat _ _ W1)), dat_ok.
  erewrite run_ebind_ok by reflexivity.
  apply run_ebind_er. apply run_open_none. exact W2.
Qed.

Lemma rk_mid_recover w : rk_mid w ->
  exists r, run (recover e) w = (World (Some d0) None None, r) /\
    (r = Ok tt \/ r = Er no_key_file \/ r = Er ENoEnt).
Proof using All.
  intros [(W1 & [(W2 & W3)|(k & W2 & Hk & _)])|(x & k & W1 & W2 & Hk & W3)].
  - exists (Er ENoEnt). split; auto. rewrite (run_recover_no_key w []); [|rewrite app_nil_r; exact W1|exact W2].
    destruct w as [wd wk wl]; change (wd = Some d0) in W1; change (wk = None) in W2; change (wl = None) in W3.
    subst. reflexivity.
  - exists (Er no_key_file). split; auto. apply (recover_short_key e w d0 k); auto.
  - exists (Ok tt). split; auto. eapply run_recover_logged; eauto.
Qed.

(** ** Stopping the recovery *)
Definition log_part (c : option bytes) : Prop := c = None \/ exists n, c = Some (btake n rc_log).
Definition rk_rec (w : world) : Prop :=
  log_part (wget w FLog) /\ (wget w FDat = Some d0 \/ rk_logged w).
(** The data file has been restored. *)
Definition rk_back (w : world) (S : surv) : Prop :=
  wget w FDat = Some d0 /\ log_part (wget w FLog) /\
  (forall c, S FDat c -> c = Some d0) /\ (forall c, S FLog c -> log_part c).
Definition back_op (o : io) : Prop :=
  match o with
  | IoOpen _ | IoSize _ | IoRead _ _ _ | IoSync _ | IoErase FKey | IoErase FLog | IoCreate FLog => True
  | IoTrunc FLog n => n = 0
  | _ => False
  end.

Lemma log_part_nil : log_part (Some []).
Proof using All. right. exists 0. rewrite btake_0. reflexivity. Qed.

Lemma rk_back_rec w S v : rk_back w S -> on_disk S v -> rk_rec v.
Proof using All. intros (_ & _ & A & B) Hv. split; [apply B, Hv|]. left. apply A, Hv. Qed.

Lemma rk_back_op o w S : back_op o -> rk_back w S -> rk_back (fst (exec o w)) (sexec ord o w S).
Proof using All.
  intros Ho (A & L & B & C). unfold rk_back.
  destruct o as [f|f|f|f|f off len|f ap off d|f|f n]; cbn [back_op] in Ho; try contradiction Ho.
  - (* open *) rewrite (pure_exec (IoOpen f) w I). splits; auto.
  - (* create *) destruct f; try contradiction Ho. cbn [exec sexec]. destruct (wget w FLog) as [x|] eqn:E; cbn [fst snd].
    + rewrite E. splits; auto.
    + rewrite wget_wset_same, wget_wset_other by discriminate. cbn [sset fname_eqb].
      splits; auto using log_part_nil. intros c [H| ->]; auto using log_part_nil.
  - (* erase *) destruct f; try contradiction Ho; cbn [exec sexec].
    + destruct (wget w FKey) as [x|] eqn:E; cbn [fst snd]; [|splits; auto].
      rewrite !wget_wset_other by discriminate. cbn [sset fname_eqb]. splits; auto.
    + destruct (wget w FLog) as [x|] eqn:E; cbn [fst snd]; [|rewrite E; splits; auto].
      rewrite wget_wset_same, wget_wset_other by discriminate. cbn [sset fname_eqb].
      splits; auto; [left; reflexivity|]. intros c [H| ->]; auto. left. reflexivity.
  - rewrite (pure_exec (IoSize f) w I). splits; auto.
  - rewrite (pure_exec (IoRead f off len) w I). splits; auto.
  - (* sync *) cbn [exec sexec]. destruct (wget w f) as [x|] eqn:E; cbn [fst snd]; splits; auto.
    + intros c. destruct f; cbn [sset fname_eqb]; auto. intros ->. rewrite <- E. exact A.
    + intros c. destruct f; cbn [sset fname_eqb]; auto. intros ->. rewrite <- E. exact L.
  - (* trunc *) destruct f; try contradiction Ho. subst n. cbn [exec sexec].
    destruct (wget w FLog) as [x|] eqn:E; cbn [fst snd]; [|rewrite E; splits; auto].
    rewrite wget_wset_same, wget_wset_other by discriminate. cbn [sset fname_eqb log_in_order]. rewrite btrunc_0.
    splits; auto using log_part_nil. intros c [H| ->]; auto using log_part_nil.
Qed.

Lemma back_safe {A} (p : prog A) w S : allops back_op anyres p -> rk_back w S ->
  safe ord rk_rec p w S (fun _ w' S' => rk_back w' S').
Proof using All.
  intros Hp Hi. apply (safe_inv' ord rk_rec back_op rk_back); auto.
  - apply rk_back_op.
  - intros w1 S1 H1 v Hv. eapply rk_back_rec; eauto.
Qed.

Lemma ops_clear : allops back_op (okres anyres) recover_clear_log.
Proof using All.
  unfold recover_clear_log. apply (ao_ebind _ anyres); [apply ao_unit; reflexivity|intros _ _].
  apply (ao_ebind _ anyres); [apply ao_unit; exact I|intros _ _]. apply ao_unit. exact I.
Qed.

Ltac okops := eapply ao_weaken with (R := okres anyres) (P := io_pure); [|auto|intros; exact I];
  first [apply ao_unit; exact I|apply ao_num; exact I|apply ao_data; exact I].

Lemma recover_stop_safe w : rk_rec w ->
  safe ord rk_rec (recover e) w (durable w) (fun _ w' S' => rk_back w' S').
Proof using All.
  intros Hw. pose proof Hw as [L0 W0].
  assert (HD : exists x, wget w FDat = Some (d0 ++ x)).
  { destruct W0 as [W0|(x & _ & W0 & _)]; [exists []; rewrite app_nil_r; exact W0|eauto]. }
  destruct HD as (x & W1).
  assert (G0 : forall v, on_disk (durable w) v -> rk_rec v).
  { intros v Hv. replace v with w; auto. pose proof (Hv FDat) as V1. pose proof (Hv FKey) as V2. pose proof (Hv FLog) as V3.
    clear - V1 V2 V3. destruct v as [v1 v2 v3], w as [u1 u2 u3]. cbv in V1, V2, V3. subst. reflexivity. }
  assert (B0 : wget w FDat = Some d0 -> rk_back w (durable w)).
  { intros E. unfold rk_back, durable. splits; auto; intros c ->; auto. }
  unfold recover.
  eapply safe_eskip; [apply (run_open _ _ _ W1)|okops|exact G0|].
  eapply safe_eskip; [apply (run_size _ _ _ W1)|okops|exact G0|].
  eapply safe_eskip; [apply (run_rc_dat _ _ W1)| |exact G0|].
  { eapply ao_weaken with (R := okres anyres) (P := io_pure); [|auto|intros; exact I].
    unfold read_dat_header. apply ops_pure_ebind; [apply ao_data; exact I|intros; apply ao_pret; exact I]. }
  rewrite dat_ok. eapply safe_eskip; [reflexivity|constructor; exact I|exact G0|].
  destruct (wget w FKey) as [k|] eqn:W2.
  2: { destruct W0 as [W0|(x' & k & _ & X & _)]; [|congruence].
       eapply safe_ebind_er; [apply run_open_none; exact W2|apply safe_pure; [okops|exact G0]|].
       cbv beta. intros S1 (_ & ->). split; auto. }
  eapply safe_eskip; [apply (run_open _ _ _ W2)|okops|exact G0|].
  eapply safe_eskip; [apply (run_size _ _ _ W2)|okops|exact G0|].
  destruct (N.leb_spec (blen k) key_hdr_size) as [Hk|Hk].
  - destruct W0 as [W0|(x' & k' & _ & X & X' & _)]; [|unfold key_hdr_size in *; replace k' with k in X' by congruence; lia].
    apply back_safe; [|apply B0; exact W0].
    eapply ao_weaken with (R := okres anyres) (P := back_op); [|auto|intros; exact I].
    apply (ao_ebind _ anyres).
    { unfold erase_file. eapply ao_bind; [apply (ao_unit back_op); exact I|]. intros [[]|er] _; [constructor; exact I|].
      destruct er; constructor; exact I. }
    intros _ _. apply (ao_ebind _ anyres); [apply ao_unit; exact I|]. intros _ _. apply ao_pfail.
  - destruct (wget w FLog) as [l|] eqn:W3.
    2: { destruct W0 as [W0|(x' & k' & _ & _ & _ & X)]; [|congruence].
         eapply safe_skip; [apply (run_open_none _ _ W3)|okops|exact G0|]. cbn [safe pret]. split; auto. }
    eapply safe_skip; [apply (run_open _ _ _ W3)|okops|exact G0|].
    eapply safe_eskip; [apply (run_size _ _ _ W3)|okops|exact G0|].
    assert (Hpr : allops io_pure anyres read_log_header).
    { eapply ao_weaken with (R := okres anyres) (P := io_pure); [|auto|intros; exact I].
      unfold read_log_header. apply ops_pure_ebind; [apply ao_data; exact I|intros; apply ao_pret; exact I]. }
    destruct (N.lt_ge_cases (blen l) log_hdr_size) as [Hl|Hl].
    + assert (R : run read_log_header w = (w, Er short_read)).
      { unfold read_log_header. apply run_ebind_er. eapply run_header_short; eauto. }
      eapply safe_skip; [exact R|exact Hpr|exact G0|].
      destruct W0 as [W0|(x' & k' & _ & _ & _ & X)].
      2: { assert (E : l = rc_log) by congruence. rewrite E, blen_rc_log in Hl. lia. }
      apply back_safe; [|apply B0; exact W0].
      eapply ao_weaken; [apply ops_clear|auto|intros; exact I].
    + assert (E : l = rc_log).
      { destruct L0 as [X|(n & X)]; [discriminate|]. injection X as ->. apply btake_all.
        rewrite blen_btake, blen_rc_log in Hl. rewrite blen_rc_log. lia. }
      rewrite E in W3.
      eapply safe_skip; [apply (run_rc_log _ W3)|exact Hpr|exact G0|].
      cbv beta iota. rewrite rc_verify. eapply safe_eskip; [reflexivity|constructor; exact I|exact G0|].
      change (lh_key_file_size rc_lh =? 0) with true. cbv iota.
      eapply safe_eskip; [reflexivity|constructor; exact I|exact G0|].
      assert (Fin : forall S1 : surv, (forall c, S1 FDat c -> c = Some d0) -> S1 FLog = durable w FLog ->
        rk_back (wset w FDat (Some d0)) S1).
      { intros S1 H1 H2. unfold rk_back. rewrite wget_wset_same, wget_wset_other by discriminate.
        rewrite H2. splits; auto; [rewrite W3, <- E; exact L0|].
        intros c ->. rewrite W3, <- E. exact L0. }
      assert (T : safe ord rk_rec (recover_trunc_files rc_lh) w (durable w) (fun _ w' S' => rk_back w' S')).
      2: { apply safe_ebind. eapply safe_weaken; [exact T|auto|]. cbv beta. intros [u|er] w' S' HB.
           - apply back_safe; [|exact HB]. eapply ao_weaken; [apply ops_clear|auto|intros; exact I].
           - split; [intros v Hv; eapply rk_back_rec; eauto|exact HB]. }
      unfold recover_trunc_files. change (lh_key_file_size rc_lh =? 0) with true. cbn [negb]. cbv iota.
      change (lh_dat_file_size rc_lh) with D.
      unfold ebind at 1. unfold p_trunc, do_unit. cbn [bind safe exec sexec]. split; [exact G0|].
      rewrite W1. cbn [bind fst snd]. rewrite btrunc_pref.
      unfold ebind at 1. unfold p_sync, do_unit. cbn [bind safe exec sexec]. rewrite wget_wset_same. cbn [fst snd bind].
      split.
      { intros v Hv. pose proof (Hv FDat) as V1. pose proof (Hv FKey) as V2. pose proof (Hv FLog) as V3.
        cbn [sset fname_eqb log_in_order] in V1, V2, V3. unfold durable in V1, V2, V3.
        rewrite W2 in V2. rewrite W3 in V3. split; [rewrite V3, <- E; exact L0|]. right.
        destruct V1 as [V1|(y & y' & Hy & V1 & Ht)].
        - exists x, k. rewrite V1. splits; auto.
        - rewrite W1 in Hy. injection Hy as ->.
          destruct (torn_trunc_pref _ _ _ (pref_app _ _) Ht) as (t & ->). exists t, k. splits; auto. }
      apply back_safe.
      * eapply ao_weaken with (R := okres anyres) (P := back_op); [apply ao_unit; exact I|auto|intros; exact I].
      * apply Fin; [intros c Hc; cbn [sset fname_eqb] in Hc; exact Hc|reflexivity].
Qed.

Lemma open_stop_safe w : rk_rec w ->
  safe ord rk_rec (store_open e) w (durable w) (fun _ w' S' => rk_back w' S').
Proof using All.
  intros Hw. unfold store_open. apply safe_ebind. eapply safe_weaken; [apply recover_stop_safe; exact Hw|auto|].
  cbv beta. intros [u|er] w' S' HB.
  2: { split; [intros v Hv; eapply rk_back_rec; eauto|exact HB]. }
  apply back_safe; [|exact HB].
  eapply ao_weaken with (R := okres anyres) (P := back_op); [|auto|intros; exact I].
  apply (ao_ebind _ anyres); [apply ao_unit; exact I|intros _ _].
  apply (ao_ebind _ anyres); [apply ao_unit; exact I|intros _ _].
  apply (ao_ebind _ anyres); [apply ao_unit; exact I|intros _ _].
  apply (ao_ebind _ anyres).
  { unfold read_dat_header. apply (ao_ebind _ anyres); [apply ao_data; exact I|intros; apply ao_pret; exact I]. }
  intros dh _. apply (ao_ebind _ anyres); [apply ao_lift; destruct (verify_dat dh); exact I|intros _ _].
  apply (ao_ebind _ anyres).
  { unfold read_key_header. apply (ao_ebind _ anyres); [apply ao_data; exact I|intros b _].
    apply (ao_ebind _ anyres); [apply ao_num; exact I|intros; apply ao_pret; exact I]. }
  intros kh _. apply (ao_ebind _ anyres); [apply ao_lift; destruct (verify_key _ kh); exact I|intros _ _].
  apply (ao_ebind _ anyres); [apply ao_lift; destruct (verify_dat_key _ dh kh); exact I|intros _ _].
  cbv zeta. destruct (kh_buckets kh <? 1); [apply ao_pfail|apply ao_pret; exact I].
Qed.

Lemma rk_mid_rec w : rk_mid w -> rk_rec w.
Proof using All.
  intros [(W1 & H)|H].
  - split; auto. destruct H as [(_ & H)|(k & _ & _ & [H|H])]; [left|left|right]; auto.
  - split; auto. destruct H as (x & k & _ & _ & _ & H). right. exists (blen rc_log). rewrite btake_all by lia. exact H.
Qed.

Lemma rk_rec_interrupted w w' : interrupted ord e w w' -> rk_rec w -> rk_rec w'.
Proof using All.
  induction 1 as [w|w w1 w' Hc Hi IH|w w1 w' Hc Hi IH]; intros H; auto.
  - apply IH. eapply safe_crash; [apply recover_stop_safe; exact H|exact Hc].
  - apply IH. eapply safe_crash; [apply open_stop_safe; exact H|exact Hc].
Qed.

Lemma rk_rec_done w : rk_rec w -> exists x, wget w FDat = Some (d0 ++ x).
Proof using All. intros [_ [H|(x & k & H & _)]]; [exists []; rewrite app_nil_r; exact H|eauto]. Qed.

Lemma rk_rec_recovered w w' r : rk_rec w -> run (recover e) w = (w', r) -> wget w' FDat = Some d0.
Proof using All.
  intros H Hr. pose proof (safe_run ord rk_rec (recover e) w (durable w) _ w' r (recover_stop_safe w H) Hr) as (X & _).
  exact X.
Qed.

(** After the log file has been erased too. *)
Lemma rekey_kept w :
  wget w FDat = Some d0 -> wget w FKey = None -> wget w FLog = None ->
  safe ord (fun v => exists x, wget v FDat = Some (d0 ++ x)) (rekey e a) w (durable w) (fun _ _ _ => True).
Proof using All.
  intros W1 W2 W3. pose proof Ha as (A1 & A2 & A3 & A4 & A5 & A6 & A7 & A8). unfold rekey.
  set (G := fun v => exists x, wget v FDat = Some (d0 ++ x)).
  assert (MG : forall v, rk_mid v -> G v) by (intros v Hv; apply rk_rec_done, rk_mid_rec, Hv).
  assert (G0 : forall v, on_disk (durable w) v -> G v).
  { intros v Hv. exists []. rewrite app_nil_r, (Hv FDat). exact W1. }
  eapply safe_eskip; [apply (run_rc_start _ W1 W3)|apply ops_start|exact G0|].
  cbv beta iota. rewrite A4, A6. pose proof (cap_104 _ A2) as Q.
  replace (bucket_capacity (ra_block_size a) =? 0) with false by lia. cbv zeta.
  apply safe_ebind. eapply safe_weaken; [apply safe_with_run; apply (rk_create_safe w W1 W2 W3)|exact MG|].
  cbv beta. intros [u|er] w1 S1 (Hi & Hr & _).
  2: { exfalso. clear - Hr W1 W2 W3. unfold rekey_create in Hr.
       rewrite (run_ebind_ok _ _ _ _ _ (run_create _ _ W2)) in Hr.
       erewrite run_ebind_ok in Hr by (eapply run_write; apply wget_wset_same). rewrite wset_wset in Hr.
       erewrite run_ebind_ok in Hr by (eapply run_sync; apply wget_wset_same).
       erewrite run_ebind_ok in Hr by (eapply run_create; rewrite wget_wset_other by discriminate; exact W3).
       erewrite run_ebind_ok in Hr by (eapply run_append; [apply wget_wset_same|reflexivity]). rewrite wset_wset in Hr.
       erewrite run_ebind_ok in Hr by (eapply run_sync; apply wget_wset_same).
       erewrite run_ebind_ok in Hr by (eapply run_write; rewrite wget_wset_other by discriminate; apply wget_wset_same).
       erewrite run_ebind_ok in Hr by (eapply run_sync; apply wget_wset_same).
       erewrite run_ebind_ok in Hr by (eapply run_write; apply wget_wset_same). rewrite wset_wset in Hr.
       erewrite run_sync in Hr by apply wget_wset_same. discriminate Hr. }
  cbv iota in Hi. unfold rekey_build. cbv zeta. fold rc_kh.
  assert (IG : forall w2 S2, rk_inv w2 S2 -> forall v, on_disk S2 v -> G v).
  { intros w2 S2 H2 v Hv. apply MG. eapply rk_inv_mid; eauto. }
  apply safe_ebind. eapply safe_weaken.
  { apply (safe_inv_res G rk_op rk_inv (okres (fun x => writer_to FDat (snd x)))).
    - apply rk_inv_op.
    - exact IG.
    - apply (ao_loop rk_op (fun s => writer_to FDat (snd s)) (fun x => writer_to FDat (snd x))).
      + intros s Hs. apply ops_pass. exact Hs.
      + split; reflexivity.
    - exact Hi. }
  { auto. }
  cbv beta. intros [[t dw]|er] w2 S2 [Hw Hi2]; [|split; [eapply IG; eauto|exact I]]. cbn [okres snd] in Hw.
  apply safe_ebind. eapply safe_weaken.
  { apply (safe_inv' ord G rk_op rk_inv).
    - apply rk_inv_op.
    - exact IG.
    - eapply ao_weaken with (R := okres (writer_to FDat)); [apply ao_ops, ops_bw_flush; exact Hw|auto|intros; exact I].
    - exact Hi2. }
  { auto. }
  cbv beta. intros [b|er] w3 S3 Hi3; [|split; [eapply IG; eauto|exact I]].
  unfold p_erase, do_unit, ebind. cbn [bind safe exec sexec]. pose proof Hi3 as (_ & _ & L & S1' & _).
  rewrite L. cbn [fst snd bind safe]. split; [eapply IG; eauto|]. split; [|exact I].
  intros v Hv. pose proof (Hv FDat) as V1. cbn [sset fname_eqb] in V1.
  destruct (S1' _ V1) as (y & E & t' & ->). exists t'. exact E.
Qed.
End Stop.
