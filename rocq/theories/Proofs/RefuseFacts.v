(** Which files open() and recover() accept. *)
From Verif Require Import Model.Bytes Model.Err Model.Field Model.Format Model.IO Model.BulkIO
  Model.Bucket Model.Pool Model.Recover Model.Create Model.Store Model.History Model.Crash Model.Events
  SpecFormat SpecHeader
  Proofs.BytesFacts Proofs.FieldFacts Proofs.IOFacts Proofs.BucketFacts Proofs.BulkFacts
  Proofs.HashFacts Proofs.HeaderFacts Proofs.FormatFacts.

Definition verdict (l : list check) : res unit :=
  match first_failed l with Some er => Er er | None => Ok tt end.

Lemma first_failed_app a b : first_failed (a ++ b) =
  match first_failed a with Some er => Some er | None => first_failed b end.
Proof. induction a as [|[[|] er] a IH]; simpl; auto. Qed.
Lemma verdict_app a b : verdict (a ++ b) = rbind (verdict a) (fun _ => verdict b).
Proof. unfold verdict. rewrite first_failed_app. destruct (first_failed a); reflexivity. Qed.

Lemma bsub_at off n l : bsub off n l = bytes_at (N.to_nat off) (N.to_nat n) l.
Proof. reflexivity. Qed.

Lemma length_at off n (l : bytes) : (off + n <= length l)%nat -> length (bytes_at off n l) = n.
Proof. intros. unfold bytes_at. rewrite firstn_length, skipn_length. lia. Qed.
Lemma ok_at off n l : bytes_ok l -> bytes_ok (bytes_at off n l).
Proof.
  intros H. pose proof (bytes_ok_bsub (N.of_nat off) (N.of_nat n) l H) as X. rewrite bsub_at, !Nat2N.id in X. exact X.
Qed.

Lemma at_take off n m (l : bytes) : (off + n <= m)%nat -> bytes_at off n (firstn m l) = bytes_at off n l.
Proof.
  intros H. unfold bytes_at. rewrite firstn_skipn_comm, firstn_firstn, Nat.min_l by lia.
  rewrite <- firstn_skipn_comm. reflexivity.
Qed.

Lemma text_beq l t : text 0 t l = beq (bytes_at 0 (length t) l) t.
Proof.
  unfold text. destruct (list_eq_dec _ _ _) as [E|E].
  - rewrite E. symmetry. apply beq_refl.
  - destruct (beq _ _) eqn:B; auto. apply beq_eq in B. contradiction.
Qed.

Lemma le64_rev n : le64 n = rev (be 8 n).
Proof. rewrite <- wr64_be. reflexivity. Qed.
Lemma pepper_fingerprint H salt : pepper H salt = fingerprint H salt.
Proof.
  unfold pepper, fingerprint. rewrite le64_rev.
  change 18446744073709551615 with (N.ones 64). apply N.land_ones.
Qed.

Section Head.
Variables (l : bytes) (m : N).
Hypothesis Hok : bytes_ok l.
Hypothesis Hl : m <= blen l.
Lemma f16 off : off + 2 <= m -> rd16 (bsub off 2 (bsub 0 m l)) = num_at (N.to_nat off) 2 l.
Proof.
  intros H. rewrite bsub_bsub, bsub_at by lia. unfold num_at. rewrite N.add_0_l.
  apply rd16_be; [apply ok_at; auto|apply length_at]. unfold blen in Hl. lia.
Qed.
Lemma f64 off : off + 8 <= m -> rd64 (bsub off 8 (bsub 0 m l)) = num_at (N.to_nat off) 8 l.
Proof.
  intros H. rewrite bsub_bsub, bsub_at by lia. unfold num_at. rewrite N.add_0_l.
  apply rd64_be; [apply ok_at; auto|apply length_at]. unfold blen in Hl. lia.
Qed.
Lemma ftext t : length t = 8%nat -> 8 <= m -> beq (bsub 0 8 (bsub 0 m l)) t = text 0 t l.
Proof. intros Ht H. rewrite bsub_bsub, bsub_at by lia. rewrite text_beq, Ht. reflexivity. Qed.
End Head.

Definition dh_of (d : bytes) := dec_dat_header (bsub 0 dat_hdr_size d).
Definition kh_of (k : bytes) := dec_key_header (bsub 0 key_hdr_size k) (blen k).
Definition lh_of (l : bytes) := dec_log_header (bsub 0 log_hdr_size l).

Lemma lt1 x : (x <? 1) = negb (1 <=? x).
Proof. destruct (N.ltb_spec x 1), (N.leb_spec 1 x); simpl; auto; lia. Qed.

Ltac plain_pos :=
  change magic_dat with dat_type; change magic_key with key_type; change magic_log with log_type;
  unfold currentVersion;
  change (N.to_nat 8) with 8%nat; change (N.to_nat 10) with 10%nat; change (N.to_nat 18) with 18%nat;
  change (N.to_nat 26) with 26%nat; change (N.to_nat 28) with 28%nat; change (N.to_nat 36) with 36%nat;
  change (N.to_nat 44) with 44%nat; change (N.to_nat 46) with 46%nat.
Ltac checks :=
  plain_pos; cbn [first_failed app];
  repeat match goal with |- context [if negb ?c then _ else _] => destruct c; cbn [negb]; auto end.

Section Checks.
Variables (e : env) (d k l : bytes).
Hypothesis (Dok : bytes_ok d) (Kok : bytes_ok k) (Lok : bytes_ok l).
Hypothesis (Dl : dat_hdr_size <= blen d) (Kl : key_hdr_size <= blen k).
Notation H := (e_hasher e).

Lemma dat_verdict : verify_dat (dh_of d) = verdict (dat_checks d).
Proof using Dok Dl.
  clear - Dok Dl. unfold verify_dat, dh_of, dec_dat_header, dat_checks, dat_hdr_size in *.
  cbn [dh_type dh_version dh_key_size].
  rewrite ftext, !f16, lt1 by (auto; try reflexivity; lia).
  unfold verdict. checks.
Qed.

Lemma key_verdict : verify_key H (kh_of k) = verdict (key_checks H k).
Proof using Kok Kl.
  clear - Kok Kl. unfold verify_key, kh_of, dec_key_header, key_checks, key_hdr_size in *.
  cbn [kh_type kh_version kh_key_size kh_pepper kh_salt kh_load_factor kh_capacity kh_buckets].
  rewrite ftext, !f16, !f64, pepper_fingerprint by (auto; try reflexivity; lia).
  rewrite !lt1.
  replace (1 <=? bucket_capacity (num_at (N.to_nat 44) 2 k)) with (104 <=? num_at 44 2 k).
  2:{ unfold bucket_capacity, key_hdr_size. change (N.to_nat 44) with 44%nat.
      set (b := num_at 44 2 k). destruct (N.leb_spec 104 b), (N.ltb_spec b 104); try lia; simpl orb.
      - change (2 + 6) with 8. change (6 + 6 + 6) with 18.
        destruct (N.ltb_spec b 8); [lia|]. symmetry. apply N.leb_le. apply N.div_le_lower_bound; lia.
      - reflexivity. }
  unfold verdict. plain_pos. cbn [first_failed].
  destruct (text 0 key_type k); cbn [negb]; auto.
  destruct (num_at 8 2 k =? 2); cbn [negb]; auto.
  destruct (1 <=? num_at 26 2 k); cbn [negb]; auto.
  destruct (num_at 36 8 k =? fingerprint H (num_at 28 8 k)); cbn [negb]; auto.
  destruct (1 <=? num_at 46 2 k); cbn [negb]; auto.
  destruct (N.leb_spec 104 (num_at 44 2 k)) as [B|B]; cbn [negb]; auto.
  replace (1 <=? buckets_of_size (blen k) (num_at 44 2 k)) with (2 * num_at 44 2 k <=? N.of_nat (length k)).
  { destruct (2 * num_at 44 2 k <=? N.of_nat (length k)); reflexivity. }
  unfold buckets_of_size, blen. set (b := num_at 44 2 k) in *. set (z := N.of_nat (length k)).
  destruct (N.ltb_spec 0 b); [|lia]. destruct (N.ltb_spec b z).
  - destruct (N.leb_spec (2 * b) z) as [C|C]; symmetry.
    + apply N.leb_le. apply N.div_le_lower_bound; lia.
    + rewrite N.div_small by lia. reflexivity.
  - destruct (N.leb_spec (2 * b) z); [lia|reflexivity].
Qed.

Lemma dat_key_verdict :
  verify_dat_key H (dh_of d) (kh_of k) = verdict (key_checks H k ++ dat_key_checks d k).
Proof using Dok Kok Dl Kl.
  unfold verify_dat_key. rewrite verdict_app, key_verdict. destruct (verdict (key_checks H k)) as [[]|]; auto.
  cbn [rbind]. unfold dh_of, kh_of, dec_dat_header, dec_key_header, dat_hdr_size, key_hdr_size in *.
  cbn [kh_uid dh_uid kh_appnum dh_appnum kh_key_size dh_key_size].
  rewrite !f16, !f64 by (auto; lia). unfold verdict, dat_key_checks, same. checks.
Qed.

Hypothesis Ll : log_hdr_size <= blen l.

Lemma log_verdict : verify_log H (lh_of l) = verdict (log_checks H l).
Proof using Lok Ll.
  clear - Lok Ll. unfold verify_log, lh_of, dec_log_header, log_checks, log_hdr_size in *.
  cbn [lh_type lh_version lh_pepper lh_salt lh_key_size].
  rewrite ftext, !f16, !f64, lt1, pepper_fingerprint by (auto; try reflexivity; lia).
  unfold verdict. checks.
Qed.

Lemma key_log_verdict :
  verify_key_log H (kh_of k) (lh_of l) = verdict (log_checks H l ++ key_log_checks k l).
Proof using Kok Lok Kl Ll.
  clear - Kok Lok Kl Ll.
  unfold verify_key_log. rewrite verdict_app, log_verdict. destruct (verdict (log_checks H l)) as [[]|]; auto.
  cbn [rbind]. unfold lh_of, kh_of, dec_log_header, dec_key_header, log_hdr_size, key_hdr_size in *.
  cbn [kh_uid lh_uid kh_appnum lh_appnum kh_key_size lh_key_size kh_salt lh_salt kh_pepper lh_pepper
       kh_block_size lh_block_size].
  rewrite !f16, !f64 by (auto; lia). unfold verdict, key_log_checks, same. checks.
Qed.

Lemma log_key_size : lh_key_file_size (lh_of l) = num_at 46 8 l.
Proof using Lok Ll.
  clear - Lok Ll. unfold lh_of, dec_log_header, log_hdr_size in *. cbn [lh_key_file_size]. rewrite f64 by (auto; lia). reflexivity.
Qed.
End Checks.

(** ** Running *)
Lemma run_header f m w c : wget w f = Some c -> m <= blen c -> run (p_read f 0 m) w = (w, Ok (bsub 0 m c)).
Proof.
  intros Hc Hm. unfold p_read, do_data; simpl. rewrite Hc.
  replace (0 + m <=? blen c) with true by (symmetry; apply N.leb_le; lia). rewrite orb_true_r. reflexivity.
Qed.
Lemma run_header_short f m w c : wget w f = Some c -> blen c < m -> run (p_read f 0 m) w = (w, Er short_read).
Proof.
  intros Hc Hm. unfold p_read, do_data; simpl. rewrite Hc.
  replace (m =? 0) with false by (symmetry; apply N.eqb_neq; lia).
  replace (0 + m <=? blen c) with false by (symmetry; apply N.leb_gt; lia). reflexivity.
Qed.
Lemma run_sz f w c : wget w f = Some c -> run (p_size f) w = (w, Ok (blen c)).
Proof. intros Hc. unfold p_size, do_num; simpl. rewrite Hc. reflexivity. Qed.

Section Run.
Variables (e : env) (w : world) (d k : bytes).
Hypothesis (Wd : w_dat w = Some d) (Wk : w_key w = Some k).
Hypothesis (Dok : bytes_ok d) (Kok : bytes_ok k).
Hypothesis (Dl : 92 <= blen d).
Notation H := (e_hasher e).

Lemma read_dat w' : w_dat w' = Some d -> run read_dat_header w' = (w', Ok (dh_of d)).
Proof using Dl.
  intros Hw. unfold read_dat_header. rewrite (run_ebind_ok _ _ _ _ _ (run_header FDat _ _ _ Hw Dl)). reflexivity.
Qed.
Lemma read_key w' : 104 <= blen k -> w_key w' = Some k -> run read_key_header w' = (w', Ok (kh_of k)).
Proof using.
  intros Kl Hw. unfold read_key_header. rewrite (run_ebind_ok _ _ _ _ _ (run_header FKey _ _ _ Hw Kl)).
  rewrite (run_ebind_ok _ _ _ _ _ (run_sz FKey _ _ Hw)). reflexivity.
Qed.
Lemma read_log w' l : log_hdr_size <= blen l -> w_log w' = Some l -> run read_log_header w' = (w', Ok (lh_of l)).
Proof using.
  intros Kl Hw. unfold read_log_header. rewrite (run_ebind_ok _ _ _ _ _ (run_header FLog _ _ _ Hw Kl)). reflexivity.
Qed.

(** The beginning of recover(). *)
Lemma recover_bad_data er : first_failed (dat_checks d) = Some er -> run (recover e) w = (w, Er er).
Proof using Wd Dok Dl.
  intros Hf. unfold recover.
  rewrite (run_ebind_ok _ _ _ _ _ (run_open FDat w d Wd)), (run_ebind_ok _ _ _ _ _ (run_sz FDat w d Wd)),
    (run_ebind_ok _ _ _ _ _ (read_dat w Wd)), dat_verdict by (auto; exact Dl).
  apply run_ebind_er. unfold plift, verdict. rewrite Hf. reflexivity.
Qed.

Lemma recover_head : first_failed (dat_checks d) = None -> 104 < blen k ->
  run (recover e) w =
  run (bind (p_open FLog) (fun a =>
  match a with
  | Er ENoEnt => pret tt
  | Er er => pfail er
  | Ok _ =>
    logFileSize <- p_size FLog ;;
    bind read_log_header (fun a =>
    match a with
    | Er short_read => recover_clear_log
    | Er er => pfail er
    | Ok lh =>
      plift (verify_log (e_hasher e) lh) ;;;
      (if lh_key_file_size lh =? 0 then pret tt
       else recover_replay e (dh_of d) lh (blen d) logFileSize) ;;;
      recover_trunc_files lh ;;;
      recover_clear_log
    end)
  end)) w.
Proof using Wd Wk Dok Dl.
  intros Hf Kl. unfold recover.
  rewrite (run_ebind_ok _ _ _ _ _ (run_open FDat w d Wd)), (run_ebind_ok _ _ _ _ _ (run_sz FDat w d Wd)),
    (run_ebind_ok _ _ _ _ _ (read_dat w Wd)), dat_verdict by (auto; exact Dl).
  erewrite run_ebind_ok by (unfold plift, verdict; rewrite Hf; reflexivity).
  rewrite (run_ebind_ok _ _ _ _ _ (run_open FKey w k Wk)), (run_ebind_ok _ _ _ _ _ (run_sz FKey w k Wk)).
  replace (blen k <=? key_hdr_size) with false by (symmetry; apply N.leb_gt; exact Kl).
  reflexivity.
Qed.

(** A key file with no more than its header is erased. *)
Lemma recover_short_key : first_failed (dat_checks d) = None -> blen k <= 104 ->
  run (recover e) w = (World (Some d) None None, Er no_key_file).
Proof using Wd Wk Dok Dl.
  intros Hf Kl. unfold recover.
  rewrite (run_ebind_ok _ _ _ _ _ (run_open FDat w d Wd)), (run_ebind_ok _ _ _ _ _ (run_sz FDat w d Wd)),
    (run_ebind_ok _ _ _ _ _ (read_dat w Wd)), dat_verdict by (auto; exact Dl).
  erewrite run_ebind_ok by (unfold plift, verdict; rewrite Hf; reflexivity).
  rewrite (run_ebind_ok _ _ _ _ _ (run_open FKey w k Wk)), (run_ebind_ok _ _ _ _ _ (run_sz FKey w k Wk)).
  replace (blen k <=? key_hdr_size) with true by (symmetry; apply N.leb_le; exact Kl).
  destruct w as [wd wk [wl|]]; cbn [w_dat w_key] in *; subst wd wk; reflexivity.
Qed.

Lemma recover_no_log : first_failed (dat_checks d) = None -> 104 < blen k ->
  match w_log w with None => True | Some l => blen l < 62 end ->
  run (recover e) w = (World (Some d) (Some k) None, Ok tt).
Proof using Wd Wk Dok Dl.
  intros Hf Kl Hlog. rewrite recover_head by auto. destruct (w_log w) as [l|] eqn:El.
  - rewrite (run_bind_eq _ _ _ _ _ (run_open FLog w l El)).
    rewrite (run_ebind_ok _ _ _ _ _ (run_sz FLog w l El)).
    assert (R : run read_log_header w = (w, Er short_read)).
    { unfold read_log_header. apply run_ebind_er. eapply run_header_short; [exact El|exact Hlog]. }
    rewrite (run_bind_eq _ _ _ _ _ R). unfold recover_clear_log.
    destruct w as [wd wk wl]; cbn [w_dat w_key w_log] in *; subst wd wk wl. reflexivity.
  - rewrite (run_bind_eq _ _ _ _ _ (run_open_none FLog w El)).
    destruct w as [wd wk wl]; cbn [w_dat w_key w_log] in *; subst wd wk wl. reflexivity.
Qed.

(** A log whose header does not match. *)
Lemma recover_bad_log l er : first_failed (dat_checks d) = None -> 104 < blen k ->
  w_log w = Some l -> bytes_ok l -> 62 <= blen l ->
  first_failed (log_checks H l) = Some er -> run (recover e) w = (w, Er er).
Proof using Wd Wk Dok Dl.
  intros Hf Kl El Lok Ll Hbad. rewrite recover_head by auto.
  rewrite (run_bind_eq _ _ _ _ _ (run_open FLog w l El)), (run_ebind_ok _ _ _ _ _ (run_sz FLog w l El)).
  rewrite (run_bind_eq _ _ _ _ _ (read_log w l Ll El)). rewrite log_verdict by auto.
  apply run_ebind_er. unfold plift, verdict. rewrite Hbad. reflexivity.
Qed.

Lemma recover_mismatch l er : first_failed (dat_checks d) = None -> 104 < blen k ->
  w_log w = Some l -> bytes_ok l -> 62 <= blen l -> num_at 46 8 l <> 0 ->
  first_failed (log_checks H l ++ key_checks H k ++ dat_key_checks d k ++ key_log_checks k l) = Some er ->
  run (recover e) w = (w, Er er).
Proof using Wd Wk Dok Kok Dl.
  intros Hf Kl El Lok Ll Hz Hbad. rewrite first_failed_app in Hbad.
  destruct (first_failed (log_checks H l)) as [er'|] eqn:EL.
  { eapply recover_bad_log; eauto. congruence. }
  rewrite recover_head by auto.
  rewrite (run_bind_eq _ _ _ _ _ (run_open FLog w l El)), (run_ebind_ok _ _ _ _ _ (run_sz FLog w l El)).
  rewrite (run_bind_eq _ _ _ _ _ (read_log w l Ll El)). rewrite log_verdict by auto.
  erewrite run_ebind_ok by (unfold plift, verdict; rewrite EL; reflexivity).
  rewrite (log_key_size l Lok Ll). destruct (N.eqb_spec (num_at 46 8 l) 0); [contradiction|].
  apply run_ebind_er. unfold recover_replay.
  assert (Kl' : 104 <= blen k) by lia.
  rewrite (run_ebind_ok _ _ _ _ _ (read_key w Kl' Wk)), key_verdict by auto.
  rewrite first_failed_app in Hbad. destruct (first_failed (key_checks H k)) as [er'|] eqn:EK.
  { apply run_ebind_er. unfold plift, verdict. rewrite EK. injection Hbad as ->. reflexivity. }
  erewrite run_ebind_ok by (unfold plift, verdict; rewrite EK; reflexivity).
  rewrite dat_key_verdict by auto.
  rewrite first_failed_app in Hbad. destruct (first_failed (dat_key_checks d k)) as [er'|] eqn:EDK.
  { apply run_ebind_er. unfold plift. rewrite verdict_app. unfold verdict. rewrite EK, EDK. injection Hbad as ->. reflexivity. }
  erewrite run_ebind_ok by (unfold plift; rewrite verdict_app; unfold verdict; rewrite EK, EDK; reflexivity).
  rewrite key_log_verdict by auto.
  apply run_ebind_er. unfold plift. rewrite verdict_app. unfold verdict. rewrite EL, Hbad. reflexivity.
Qed.

(** open() *)
Lemma open_checked_log : 104 < blen k ->
  match w_log w with None => True | Some l => blen l < 62 end ->
  exists w', same_files w' w /\
  w' = match first_failed (dat_checks d) with Some _ => w | None => World (Some d) (Some k) (Some []) end /\
  match first_failed (dat_checks d ++ key_checks H k ++ dat_key_checks d k) with
  | Some er => run (store_open e) w = (w', Er er)
  | None => exists s, run (store_open e) w = (w', Ok s)
  end.
Proof using Wd Wk Dok Kok Dl.
  intros Kl Hlog. rewrite first_failed_app. destruct (first_failed (dat_checks d)) as [er|] eqn:ED.
  { exists w. split; [split; reflexivity|]. split; [reflexivity|]. unfold store_open.
    erewrite run_ebind_er by (apply recover_bad_data; eauto). reflexivity. }
  set (w1 := World (Some d) (Some k) None). set (w2 := World (Some d) (Some k) (Some [])).
  exists w2. split; [split; symmetry; assumption|]. split; [reflexivity|].
  assert (R : forall X, run (store_open e) w = X <-> run (
     dh <- read_dat_header ;;
     plift (verify_dat dh) ;;;
     kh <- read_key_header ;;
     plift (verify_key (e_hasher e) kh) ;;;
     plift (verify_dat_key (e_hasher e) dh kh) ;;;
     let thresh := N.max 65536 (kh_load_factor kh * kh_capacity kh) in
     if kh_buckets kh <? 1 then pfail short_key_file
     else
       pret (Store kh pool_empty pool_empty [] (thresh / 2) thresh
               (kh_buckets kh) (ceil_pow2 (kh_buckets kh)) None)) w2 = X).
  { intros X. unfold store_open. rewrite (run_ebind_ok _ _ _ _ _ (recover_no_log ED Kl Hlog)).
    rewrite (run_ebind_ok _ _ w1 w1 tt) by reflexivity.
    rewrite (run_ebind_ok _ _ w1 w1 tt) by reflexivity.
    rewrite (run_ebind_ok _ _ w1 w2 tt) by reflexivity. reflexivity. }
  assert (Kl' : 104 <= blen k) by lia.
  assert (R2 : forall X, run (store_open e) w = X <-> run (
     plift (verdict (key_checks H k)) ;;;
     plift (verdict (key_checks H k ++ dat_key_checks d k)) ;;;
     let thresh := N.max 65536 (kh_load_factor (kh_of k) * kh_capacity (kh_of k)) in
     if kh_buckets (kh_of k) <? 1 then pfail short_key_file
     else
       pret (Store (kh_of k) pool_empty pool_empty [] (thresh / 2) thresh
               (kh_buckets (kh_of k)) (ceil_pow2 (kh_buckets (kh_of k))) None)) w2 = X).
  { intros X. rewrite R. rewrite (run_ebind_ok _ _ _ _ _ (read_dat w2 eq_refl)), dat_verdict by auto.
    erewrite run_ebind_ok by (unfold plift, verdict; rewrite ED; reflexivity).
    rewrite (run_ebind_ok _ _ _ _ _ (read_key w2 Kl' eq_refl)), key_verdict, dat_key_verdict by auto. reflexivity. }
  clear R. rewrite first_failed_app. destruct (first_failed (key_checks H k)) as [er|] eqn:EK.
  { apply R2. apply run_ebind_er. unfold plift, verdict. rewrite EK. reflexivity. }
  destruct (first_failed (dat_key_checks d k)) as [er|] eqn:EDK.
  { apply R2. erewrite run_ebind_ok by (unfold plift, verdict; rewrite EK; reflexivity).
    apply run_ebind_er. unfold plift. rewrite verdict_app. unfold verdict. rewrite EK, EDK. reflexivity. }
  eexists. apply R2. erewrite run_ebind_ok by (unfold plift, verdict; rewrite EK; reflexivity).
  erewrite run_ebind_ok by (unfold plift; rewrite verdict_app; unfold verdict; rewrite EK, EDK; reflexivity).
  cbv zeta. pose proof (key_verdict e k Kok Kl') as Hv. unfold verdict in Hv. rewrite EK in Hv.
  destruct (kh_buckets (kh_of k) <? 1) eqn:EB; [|reflexivity].
  exfalso. unfold verify_key in Hv. rewrite EB in Hv.
  repeat match type of Hv with (if ?c then _ else _) = _ => destruct c; try discriminate Hv end.
Qed.

Lemma open_checked : 104 < blen k ->
  match w_log w with None => True | Some l => blen l < 62 end ->
  exists w', same_files w' w /\
  match first_failed (dat_checks d ++ key_checks H k ++ dat_key_checks d k) with
  | Some er => run (store_open e) w = (w', Er er)
  | None => exists s, run (store_open e) w = (w', Ok s)
  end.
Proof using Wd Wk Dok Kok Dl.
  intros Kl Hlog. destruct (open_checked_log Kl Hlog) as (w' & A & _ & B). exists w'. split; [exact A|exact B].
Qed.
End Run.

Lemma open_recover_er e w w' er : run (recover e) w = (w', Er er) -> run (store_open e) w = (w', Er er).
Proof. intros H. unfold store_open. apply run_ebind_er. exact H. Qed.

Lemma bad_log_refused e w d k l er :
  w_dat w = Some d -> w_key w = Some k -> w_log w = Some l ->
  bytes_ok d -> bytes_ok l -> 92 <= blen d -> 104 < blen k -> 62 <= blen l ->
  first_failed (dat_checks d ++ log_checks (e_hasher e) l) = Some er ->
  run (recover e) w = (w, Er er) /\ run (store_open e) w = (w, Er er).
Proof.
  intros Wd Wk Wl Dok Lok Dl Kl Ll Hf.
  assert (R : run (recover e) w = (w, Er er)).
  { rewrite first_failed_app in Hf. destruct (first_failed (dat_checks d)) as [er'|] eqn:E.
    - eapply recover_bad_data; eauto. congruence.
    - eapply recover_bad_log; eauto. }
  split; auto. apply open_recover_er. exact R.
Qed.

Lemma mismatched_log_refused e w d k l er :
  w_dat w = Some d -> w_key w = Some k -> w_log w = Some l ->
  bytes_ok d -> bytes_ok k -> bytes_ok l -> 92 <= blen d -> 104 < blen k -> 62 <= blen l ->
  num_at 46 8 l <> 0 ->
  first_failed (dat_checks d ++ log_checks (e_hasher e) l ++ key_checks (e_hasher e) k ++
                dat_key_checks d k ++ key_log_checks k l) = Some er ->
  run (recover e) w = (w, Er er) /\ run (store_open e) w = (w, Er er).
Proof.
  intros Wd Wk Wl Dok Kok Lok Dl Kl Ll Hz Hf.
  assert (R : run (recover e) w = (w, Er er)).
  { rewrite first_failed_app in Hf. destruct (first_failed (dat_checks d)) as [er'|] eqn:E.
    - eapply recover_bad_data; eauto. congruence.
    - eapply recover_mismatch; eauto. }
  split; auto. apply open_recover_er. exact R.
Qed.

Lemma short_key_erased e w d k :
  w_dat w = Some d -> w_key w = Some k -> bytes_ok d -> 92 <= blen d -> blen k <= 104 ->
  first_failed (dat_checks d) = None ->
  run (store_open e) w = (World (Some d) None None, Er no_key_file).
Proof. intros. apply open_recover_er. eapply recover_short_key; eauto. Qed.
