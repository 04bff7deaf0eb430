(** The calls of progress made by verify(), for any files. *)
From Verif Require Import Model.Bytes Model.Err Model.Field Model.Format Model.IO
  Model.BulkIO Model.Bucket Model.Recover Model.Verify Model.VerifyProgress SpecFormat SpecHeader SpecProgress
  Proofs.BytesFacts Proofs.FieldFacts Proofs.IOFacts Proofs.BucketFacts Proofs.RefuseFacts
  Model.Pool Model.Create Model.Store Model.History Spec SpecDisk SpecVisit SpecVerify
  Proofs.Table Proofs.CommitFacts Proofs.StoreInv Proofs.OpenFacts Proofs.LifeFacts Proofs.WrittenFacts Proofs.VerifyTheorems
  Proofs.VerifyProgressFacts.
Opaque loop.

(** Calls are lost only where the code does not end. *)
Definition ended {A} (x : res A) : Prop := match x with Ok _ => True | Er er => er = EDiverge end.
Definition ending {S A} (x : S + res A) : Prop := match x with inl _ => True | inr x => ended x end.

Ltac walk := repeat first [exact I | reflexivity |
  match goal with
  | |- holds _ (bind _ _) => eapply holds_bind; [apply holds_any|intros ? _]
  | |- holds _ (match ?x with _ => _ end) => destruct x
  | |- holds _ (if ?x then _ else _) => destruct x
  end].

Lemma record_ends e kh nw s : holds ending (vnp_record e kh nw s).
Proof. destruct s as [[[v r] work] t]. unfold vnp_record. cbv zeta. walk. Qed.
Lemma bucket_ends e kh nw s : holds ending (vnp_bucket_step e kh nw s).
Proof. destruct s as [[[n v] work] t]. unfold vnp_bucket_step. cbv zeta. walk. Qed.
Lemma frecord_ends e kh b0 b1 buf tmp work nw s : holds ending (vfp_record e kh b0 b1 buf tmp work nw s).
Proof. destruct s as [[[nk v] r] t]. unfold vfp_record. cbv zeta. walk. Qed.
Lemma loop_ends {S A} (step : S -> prog (S + res A)) s : (forall s, holds ending (step s)) -> holds ended (loop step s).
Proof.
  intros H. apply holds_loop with (I := fun _ => True); [|reflexivity|exact I].
  intros s0 _. exact (H s0).
Qed.
Lemma pass_ends e kh d ch nw s : holds ending (vfp_pass e kh d ch nw s).
Proof.
  destruct s as [[[[b0 tmp] v] work] t]. unfold vfp_pass. cbv zeta. destruct (_ <? _); [|exact I].
  eapply holds_bind; [apply holds_any|]. intros [bf|er] _; [|exact I].
  eapply holds_bind; [apply holds_any|]. intros [[[nk tmp'] v']|er] _; [|exact I].
  eapply holds_bind; [apply loop_ends; intros s0; apply frecord_ends|]. intros [[t' x]|er] Hx; [walk|exact Hx].
Qed.
Lemma progress_ends e buf : holds ended (verify_progress e buf).
Proof.
  unfold verify_progress. eapply holds_bind; [apply holds_any|]. intros [[[kh L] K]|er] _; [|exact I].
  destruct (verify_choose_normal _ _ _ _).
  - unfold vnp. cbv zeta. unfold ebind. eapply holds_bind; [apply loop_ends; intros s0; apply record_ends|].
    intros [[t [[v work]|er]]|er] Hx; [|exact I|exact Hx]. apply loop_ends. intros s0. apply bucket_ends.
  - unfold vfp. cbv zeta. destruct (_ <? _); [exact I|]. apply loop_ends. intros s0. apply pass_ends.
Qed.

(** Leaving the calls out. *)
Theorem same_result_as_verify e buf w :
  match run (verify_progress e buf) w with
  | (w', Ok (_, r)) => run (verify e buf) w = (w', r)
  | (w', Er er) => er = EDiverge /\ run (verify e buf) w = (w', Er er)
  end.
Proof.
  destruct (sim_run plain_res _ _ w (verify_sim e buf)) as [H1 H2].
  pose proof (holds_run _ _ w (progress_ends e buf)) as H3.
  destruct (run (verify_progress e buf) w) as [w' [[t r]|er]], (run (verify e buf) w) as [w'' x];
    cbn [fst snd plain_res ended] in *; subst; auto.
Qed.

Section Open.
Variables (e : env) (w : world) (d k : bytes).
Hypothesis (Wd : w_dat w = Some d) (Wk : w_key w = Some k) (Kok : bytes_ok k).
Notation bs := (num_at 44 2 k).

Lemma open_result w' kh L K : run (verify_open e) w = (w', Ok (kh, L, K)) ->
  w' = w /\ kh = kh_of k /\ L = blen d /\ K = blen k /\ 92 <= blen d /\ 104 <= blen k /\ 1 <= kh_capacity kh /\ 1 <= kh_buckets kh.
Proof using Wd Wk.
  unfold verify_open.
  rewrite (run_ebind_ok _ _ _ _ _ (run_open FDat w d Wd)), (run_ebind_ok _ _ _ _ _ (run_open FKey w k Wk)).
  destruct (N.le_gt_cases 92 (blen d)) as [Dl|Dl].
  2:{ unfold read_dat_header. rewrite run_ebind, run_ebind.
      rewrite (run_read_short FDat _ _ w d Wd) by (unfold dat_hdr_size; lia). discriminate. }
  rewrite (run_ebind_ok _ _ _ _ _ (read_dat d Dl w Wd)).
  rewrite run_ebind. cbn [plift run]. destruct (verify_dat _) as [[]|]; [|discriminate].
  destruct (N.le_gt_cases 104 (blen k)) as [Kl|Kl].
  2:{ unfold read_key_header. rewrite run_ebind, run_ebind.
      rewrite (run_read_short FKey _ _ w k Wk) by (unfold key_hdr_size; lia). discriminate. }
  rewrite (run_ebind_ok _ _ _ _ _ (read_key k w Kl Wk)).
  rewrite run_ebind. cbn [plift run]. destruct (verify_key _ _) as [[]|] eqn:EK; [|discriminate].
  rewrite run_ebind. cbn [plift run]. destruct (verify_dat_key _ _ _) as [[]|]; [|discriminate].
  rewrite (run_ebind_ok _ _ _ _ _ (run_size FKey w k Wk)), (run_ebind_ok _ _ _ _ _ (run_size FDat w d Wd)).
  cbn [pret run]. intros [= <- <- <- <-]. split; [reflexivity|]. split; [reflexivity|]. split; [reflexivity|].
  split; [reflexivity|]. split; [exact Dl|]. split; [exact Kl|].
  unfold verify_key in EK. repeat (destruct (negb _) in EK; [discriminate EK|]).
  destruct (_ <? 1) in EK; [discriminate EK|]. repeat (destruct (negb _) in EK; [discriminate EK|]).
  destruct (_ <? 1) in EK; [discriminate EK|].
  destruct (N.ltb_spec (kh_capacity (kh_of k)) 1) as [Y|Y] in EK; [discriminate EK|].
  destruct (N.ltb_spec (kh_buckets (kh_of k)) 1) as [X|X] in EK; [discriminate EK|]. split; [exact Y|exact X].
Qed.

Lemma header_fields : 104 <= blen k ->
  kh_block_size (kh_of k) = bs /\ kh_load_factor (kh_of k) = num_at 46 2 k /\ bs <= 65535 /\ num_at 46 2 k <= 65535 /\
  kh_capacity (kh_of k) = bucket_capacity bs /\ kh_buckets (kh_of k) = buckets_of_size (blen k) bs.
Proof using Kok.
  intros Kl. assert (A : rd16 (bsub 44 2 (bsub 0 104 k)) = bs) by (apply f16; auto; lia).
  assert (C : rd16 (bsub 46 2 (bsub 0 104 k)) = num_at 46 2 k) by (apply f16; auto; lia).
  unfold kh_of, dec_key_header, key_hdr_size.
  cbn [kh_block_size kh_load_factor kh_capacity kh_buckets]. rewrite A, C.
  assert (X : forall o, o + 2 <= 104 -> rd16 (bsub o 2 (bsub 0 104 k)) < 65536).
  { intros o Ho. apply rd16_lt; [apply bytes_ok_bsub, bytes_ok_bsub; exact Kok|].
    apply blen_bsub. rewrite blen_bsub; lia. }
  pose proof (X 44 ltac:(lia)) as X1. pose proof (X 46 ltac:(lia)) as X2. rewrite A in X1. rewrite C in X2.
  repeat split; lia || reflexivity.
Qed.

Lemma buckets_eq K b : 1 <= buckets_of_size K b -> buckets_of_size K b = K / b - 1 /\ (buckets_of_size K b + 1) * b <= K /\ 0 < b.
Proof using.
  clear. unfold buckets_of_size. destruct (N.ltb_spec b K) as [H|H]; [|lia]. destruct (N.ltb_spec 0 b) as [H0|H0]; [|lia].
  intros _. assert (X : (K - b) / b = K / b - 1).
  { replace K with (K - b + 1 * b) at 2 by lia. rewrite N.div_add by lia. rewrite N.add_sub. reflexivity. }
  split; [exact X|]. split; [|exact H0]. pose proof (N.mul_div_le (K - b) b ltac:(lia)). lia.
Qed.

Theorem progress_of_verify buf w' t r :
  blen d < 2 ^ 49 -> blen k < 2 ^ 49 -> passes bs (blen k / bs - 1) buf * blen d + blen k < 2 ^ 64 ->
  run (verify_progress e buf) w = (w', Ok (t, r)) ->
  exists total, rising 0 total t /\
    forall v, r = Ok v ->
      vi_algorithm v = 1 \/ (vi_value_count v <= expected k /\ vi_key_count v <= expected k) ->
      at_most total t.
Proof using Wd Wk Kok.
  intros HL HK HP HR. unfold verify_progress in HR. rewrite run_bind in HR.
  destruct (run (verify_open e) w) as [w1 [[[kh L] K]|er]] eqn:E.
  2:{ cbn [pret run] in HR. injection HR; intros; subst. exists 0. split; [exact I|constructor]. }
  apply open_result in E as (-> & -> & -> & -> & Dl & Kl & HC & HB).
  destruct (header_fields Kl) as (Ebs & Elf & Hbs & Hlf & Ecap & EB).
  rewrite EB in HB. apply buckets_eq in HB as HB'. destruct HB' as (EB2 & HB2 & Hbs0).
  assert (HBK : (kh_buckets (kh_of k) + 1) * kh_block_size (kh_of k) <= blen k) by (rewrite EB, Ebs; exact HB2).
  destruct (verify_choose_normal _ _ _ _) eqn:EC.
  - pose proof (holds_run _ _ w (normal_holds e (kh_of k) (blen d) (blen k) ltac:(rewrite Ebs; exact Hbs) HBK Dl HL HK)) as X.
    rewrite HR in X. cbn [snd normal_post] in X. cbv zeta in X. destruct X as [X1 X2].
    assert (HW : vn_work (kh_of k) (blen d) (blen k) < 2 ^ 64).
    { apply work_small; try assumption; rewrite ?Ebs, ?Elf; assumption. }
    rewrite (N.mod_small _ _ HW) in X1. exists (vn_work (kh_of k) (blen d) (blen k)). split; [exact X1|].
    intros v ->. destruct X2 as [Ha Hm]. intros [H1|[H1 H2]]; [lia|].
    assert (EE : expected k = vn_keys (kh_of k)).
    { unfold expected, vn_keys. cbv zeta. rewrite Elf, EB, EB2, Ecap.
      replace (bucket_capacity bs) with (capacity bs); [reflexivity|].
      rewrite Ecap in HC. unfold bucket_capacity in HC |- *. destruct (_ || _); [lia|reflexivity]. }
    rewrite EE in H1, H2. eapply at_most_le; [|exact Hm].
    apply work_enough; try assumption; rewrite ?Ebs, ?Elf; assumption.
  - assert (Hch : 0 < verify_chunk (kh_of k) buf).
    { unfold verify_choose_normal in EC. cbv zeta in EC. apply orb_false_elim in EC as [EC _]. apply N.eqb_neq in EC. lia. }
    assert (EP : vf_work (kh_of k) (blen d) (blen k) buf = passes bs (blen k / bs - 1) buf * blen d + blen k).
    { unfold vf_work, vf_passes, passes. cbv zeta. unfold verify_chunk in *. cbv zeta in *.
      destruct (_ <=? _); [|lia]. rewrite Ebs, EB, EB2. reflexivity. }
    pose proof (holds_run _ _ w (fast_holds e (kh_of k) (blen d) (blen k) buf HBK Dl Hch ltac:(rewrite EP; exact HP))) as X.
    rewrite HR in X. cbn [snd fpost2] in X. destruct X as [X1 X2].
    exists (vf_work (kh_of k) (blen d) (blen k) buf). split; [exact X1|]. intros v _ _. exact X2.
Qed.
End Open.

(** ** Databases reached by a history of calls *)
Lemma kfile_ok e p T : bytes_ok (kfile (db_block_size p) (db_kb e p) T).
Proof.
  unfold kfile. apply bytes_ok_app. split.
  - unfold db_kb, enc_key_header_block, enc_key_header. rewrite !bytes_ok_app.
    assert (bytes_ok magic_key) by (repeat constructor).
    auto 20 using bytes_ok_wr16, bytes_ok_wr64, bytes_ok_zeros.
  - induction T as [|x T IH]; [constructor|]. cbn [flat_map]. apply bytes_ok_app. split; [|exact IH].
    unfold kblock, enc_block, enc_bucket. rewrite !bytes_ok_app.
    split; [|apply bytes_ok_zeros]. split; [apply bytes_ok_wr16|]. split; [apply bytes_ok_wr48|].
    unfold enc_entries. induction (fst x) as [|en es IHe]; [constructor|]. cbn [flat_map]. unfold enc_entry at 1.
    rewrite !bytes_ok_app. auto using bytes_ok_wr48.
Qed.

Lemma lived_progress e a l w s buf k : iter_ok e -> good_args a -> Forall (valid_op (ca_key_size a)) l ->
  lived e a l w s -> w_key w = Some k -> blen k < 2 ^ 49 ->
  passes (num_at 44 2 k) (blen k / num_at 44 2 k - 1) buf * 2 ^ 49 < 2 ^ 63 ->
  exists t r total, run (verify_progress e buf) w = (w, Ok (t, r)) /\ run (verify e buf) w = (w, r) /\
    rising 0 total t /\
    forall v, r = Ok v -> vi_algorithm v = 1 \/ blen (written sempty [] [] l) <= expected k -> at_most total t.
Proof.
  intros Hit Ha Hv Hl Wk HK HP. destruct (good_args_ok a Ha) as (Hp & _).
  destruct (lived_verify e a l w s buf Hit Ha Hv Hl) as (dat & key & rs & lens & Wd & Wk' & Hdb & Hval & Hr).
  assert (key = k) by congruence. subst key. clear Wk'.
  destruct (lived_written e a l w s Ha Hit Hv Hl) as (recs & T & i & b & Hi & _ & Hk). clear Hl Hdb.
  pose proof (si_disk _ _ _ _ _ _ Hi) as Hd. clear Hi.
  assert (Kok : bytes_ok k).
  { pose proof (dk_key _ _ _ _ _ Hd) as X. change (w_key w = Some (kfile (db_block_size (dbp_of a)) (db_kb e (dbp_of a)) T)) in X.
    rewrite Wk in X. injection X as ->. apply kfile_ok. }
  assert (HL : blen dat < 281483566645248).
  { pose proof (dk_dat _ _ _ _ _ Hd) as X. change (w_dat w = Some (db_hdr (dbp_of a) ++ enc_recs recs)) in X.
    rewrite Wd in X. injection X as ->. apply (data_short e (dbp_of a)); try assumption; apply Hd. }
  clear Hd Hk.
  assert (E : exists r, run (verify e buf) w = (w, r) /\ r <> Er EDiverge /\ forall v, r = Ok v ->
    vi_value_count v = blen (written sempty [] [] l) /\ vi_key_count v = blen (written sempty [] [] l)).
  { rewrite <- Hval. destruct Hr as [(v & Hr & R)|(Hr & _)].
    - exists (Ok v). split; [exact Hr|]. split; [discriminate|]. intros v' X. injection X as <-.
      destruct R as (R1 & R2 & _). split; [exact R2|exact R1].
    - exists (Er invalid_spill_size). split; [exact Hr|]. split; [discriminate|]. intros v' X. discriminate X. }
  destruct E as (r & E & Hnd & Hcount). clear Hr.
  pose proof (same_result_as_verify e buf w) as X. rewrite E in X.
  destruct (run (verify_progress e buf) w) as [w' [[t r']|er]] eqn:R.
  2:{ destruct X as [-> X]. injection X as _ X. congruence. }
  injection X as <- <-.
  assert (HP' : passes (num_at 44 2 k) (blen k / num_at 44 2 k - 1) buf * blen dat + blen k < 2 ^ 64).
  { set (q := passes _ _ _) in *. clearbody q. change (2 ^ 49) with 562949953421312 in *. change (2 ^ 63) with 9223372036854775808 in *.
    change (2 ^ 64) with 18446744073709551616.
    assert (q * blen dat <= q * 562949953421312) by (apply N.mul_le_mono_l; lia). lia. }
  assert (HL' : blen dat < 2 ^ 49) by (change (2 ^ 49) with 562949953421312; lia).
  destruct (progress_of_verify e w dat k Wd Wk Kok buf w t r HL' HK HP' R) as (total & H1 & H2).
  exists t, r, total. split; [reflexivity|]. split; [exact E|]. split; [exact H1|].
  intros v Hv' [H|H]; apply (H2 v Hv'); [left; exact H|right].
  destruct (Hcount v Hv') as [-> ->]. split; exact H.
Qed.
