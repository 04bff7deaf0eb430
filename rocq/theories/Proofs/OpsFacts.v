(** The operations that the functions may carry out. *)
From Verif Require Import Model.Bytes Model.Err Model.Field Model.Format Model.IO
  Model.BulkIO Model.Bucket Model.Pool Model.Recover Model.Create Model.Store Model.Visit Model.Verify
  Model.VerifyProgress Model.VerifyFetch Model.Rekey Model.Crash SpecOps
  Proofs.BytesFacts Proofs.SafeFacts Proofs.CommitOps Proofs.RecoverFacts Proofs.EventFacts.
Opaque loop.

Lemma may_ops {A} (P : io -> Prop) R (p : prog A) o : allops P R p -> may_do o p -> P o.
Proof. intros Ha Hm. induction Hm; inversion Ha; subst; auto. Qed.

(** ** Reading functions *)
Lemma reads_vfind e bs h off b : reads (vfind e bs h off b).
Proof.
  apply reads_loop. intros b'. unfold vfind_step. destruct (bucket_capacity _ <? _); [apply reads_ret|].
  destruct (vfind_scan _ _ _ _ _); [apply reads_ret|]. destruct (bk_spill b' =? 0); [apply reads_ret|].
  apply reads_bind; [apply reads_bk_read|]. intros [x|[]]; apply reads_ret.
Qed.
Ltac rd := first
  [ apply reads_ret | apply reads_br_prepare | apply reads_bk_read | apply reads_bk_read_bulk
  | apply reads_read | apply reads_size | apply reads_open | apply reads_dh | apply reads_kh
  | apply reads_vfind | apply reads_lift
  | apply reads_bind; [|intros] | apply reads_ebind; [|intros]
  | match goal with
    | |- reads (if ?b then _ else _) => destruct b
    | |- reads (match ?a with _ => _ end) => destruct a
    | |- reads (let '(_, _) := ?a in _) => destruct a
    end
  | progress cbv beta iota zeta ].

Lemma reads_visit cb : reads (visit cb).
Proof.
  unfold visit. apply reads_bind; [repeat rd|]. intros [[ks fs]|er]; [|apply reads_ret].
  apply reads_loop. intros [t r]. unfold visit_step. repeat rd.
Qed.

Lemma reads_vn_entries e kh b fuel : forall i, reads (vn_entries e kh fuel b i).
Proof. induction fuel as [|n IH]; intros i; cbn [vn_entries]; [apply reads_ret|]. repeat first [apply IH|rd]. Qed.
Lemma reads_vn_buckets e kh st : reads (loop (vn_bucket_step e kh) st).
Proof.
  apply reads_loop. intros [n v]. unfold vn_bucket_step. rd; [|rd]. rd; [rd|]. destruct a as [b|er]; [|rd].
  apply reads_bind; [|intros; repeat rd]. apply reads_loop. intros [[b' ns] v']. unfold vn_chain_step.
  apply reads_bind; [apply reads_vn_entries|]. intros; repeat rd.
Qed.
Lemma reads_vf_count e bs fuel buf : forall i tmp v, reads (vf_count e bs fuel buf i tmp v).
Proof.
  induction fuel as [|n IH]; intros i tmp v; cbn [vf_count]; [apply reads_ret|].
  cbv zeta. apply reads_ebind.
  - apply reads_loop. intros [[[[sp nk] ns] tm] v']. unfold vf_count_step. repeat rd.
  - intros [[[nk ns] tm] v']. apply reads_ebind; [apply IH|]. intros [[l tm'] v2]. apply reads_ret.
Qed.

Lemma reads_verify e buf : reads (verify e buf).
Proof.
  unfold verify. repeat (apply reads_ebind; [repeat rd|intros]). rd.
  - unfold verify_normal. cbv zeta. apply reads_ebind; [|intros; apply reads_vn_buckets].
    apply reads_loop. intros [v r]. unfold vn_record. repeat rd.
  - unfold verify_fast. rd; [rd|]. apply reads_loop. intros [[b0 tmp] v]. unfold vf_pass. cbv zeta.
    rd; [|rd]. apply reads_bind; [rd|]. intros [bf|er]; [|rd].
    apply reads_bind; [apply reads_vf_count|]. intros [[[nk tm] v']|er]; [|rd].
    apply reads_bind; [|intros; repeat rd]. apply reads_loop. intros [[nk' v2] r]. unfold vf_record. repeat rd.
Qed.

Lemma reads_verify_report e buf : reads (verify_report e buf).
Proof.
  assert (F : forall bs h off b f, reads (vfindc e bs h off b f)).
  { intros. unfold vfindc. apply reads_loop. intros [b' f']. unfold vfindc_step. repeat rd. }
  unfold verify_report. apply reads_ebind.
  { unfold verify_open. repeat rd. }
  intros [[kh ds] ks]. apply reads_ebind; [|intros; apply reads_ret]. rd.
  - unfold vnf. cbv zeta. apply reads_ebind.
    + apply reads_loop. intros [[v f] r]. unfold vnf_record. repeat first [apply F|rd].
    + intros [v f]. apply reads_ebind; [apply reads_vn_buckets|]. intros; apply reads_ret.
  - unfold vff. rd; [rd|]. apply reads_loop. intros [[[b0 tmp] v] f]. unfold vff_pass. cbv zeta.
    rd; [|rd]. apply reads_bind; [rd|]. intros [bf|er]; [|rd].
    apply reads_bind; [apply reads_vf_count|]. intros [[[nk tm] v']|er]; [|rd].
    apply reads_bind; [|intros; repeat rd]. apply reads_loop. intros [[[nk' v2] f2] r]. unfold vff_record.
    repeat first [apply F|rd].
Qed.

Lemma reads_run {A} (p : prog A) : reads p -> forall w, fst (run p w) = w.
Proof.
  intros H. induction H as [a|o k Ho Hk IH]; intros w; [reflexivity|].
  rewrite run_do, IH. apply pure_exec, Ho.
Qed.

(** ** The flush *)
Lemma app_flush bs f o : f <> FKey -> app_to f o -> flush_may bs o.
Proof.
  intros Hf [Hp|(off & d & ->)].
  - destruct o; simpl in *; auto; contradiction.
  - destruct f; simpl; auto. congruence.
Qed.

Lemma ops_any P {A} (p : prog (res A)) : allops P anyres p -> allops P (okres anyres) p.
Proof. intros. eapply ao_weaken; eauto. intros [a|er] _; exact I. Qed.
Lemma ops_res P {A} (p : prog (res A)) : allops P (okres anyres) p -> allops P anyres p.
Proof. intros. eapply ao_weaken; eauto. intros; exact I. Qed.

Lemma ops_unit_b (P : io -> Prop) {B} o (f : unit -> prog (res B)) :
  P o -> (forall a, allops P (okres anyres) (f a)) -> allops P (okres anyres) (ebind (do_unit o) f).
Proof. intros Ho Hf. apply (ao_ebind P anyres); [apply ao_unit, Ho|auto]. Qed.
Lemma ops_num_b (P : io -> Prop) {B} o (f : N -> prog (res B)) :
  P o -> (forall a, allops P (okres anyres) (f a)) -> allops P (okres anyres) (ebind (do_num o) f).
Proof. intros Ho Hf. apply (ao_ebind P anyres); [apply ao_num, Ho|auto]. Qed.

Lemma ops_commit e s : allops (flush_may (kh_block_size (st_kh s))) (okres anyres) (commit e s).
Proof.
  unfold commit. cbv zeta. set (kh := st_kh s). set (bs := kh_block_size kh).
  apply (ao_ebind _ anyres).
  { unfold commit_begin. apply ops_num_b; [exact I|intros]. apply ops_num_b; [exact I|intros].
    apply ops_unit_b; [reflexivity|intros]. apply ao_unit. exact I. }
  intros _ _. apply (ao_ebind _ anyres).
  { apply ops_any. eapply ao_weaken; [apply ops_commit_data| |auto]. intros o. apply app_flush. discriminate. }
  intros st _. apply (ao_ebind _ anyres).
  { unfold commit_log. apply ops_num_b; [exact I|intros size]. cbv zeta.
    assert (L : forall w, writer_to FLog w -> allops (flush_may bs) (okres (writer_to FLog)) (bw_flush w)).
    { intros w Hw. eapply ao_weaken; [apply (ops_bw_flush FLog); auto| |auto]. intros o. apply app_flush. discriminate. }
    apply (ao_ebind _ (writer_to FLog)).
    - eapply ao_weaken; [apply (ops_commit_log_records FLog); split; reflexivity| |auto].
      intros o. apply app_flush. discriminate.
    - intros w Hw. apply (ao_ebind _ (writer_to FLog)); [apply L; auto|]. intros. apply ao_unit. exact I. }
  intros _ _. apply (ao_ebind _ anyres).
  { apply ops_any. eapply ao_weaken; [apply ops_commit_key, incl_refl| |auto].
    intros o (n & p & _ & ->). split; [reflexivity|]. exists n. reflexivity. }
  intros _ _. apply (ao_ebind _ anyres).
  { unfold commit_end. do 2 (apply ops_unit_b; [exact I|intros]). apply ops_unit_b; [split; reflexivity|intros].
    apply ao_unit. exact I. }
  intros _ _. apply ao_pret. exact I.
Qed.

Lemma ops_flush e s : allops (flush_may (kh_block_size (st_kh s))) anyres (store_flush e s).
Proof.
  unfold store_flush. destruct (pool_is_empty (st_p1 s)); [constructor; exact I|].
  destruct (st_ec s); [constructor; exact I|].
  eapply ao_bind; [apply ops_commit|]. intros [s'|er] _; constructor; exact I.
Qed.

Lemma ops_close e s : allops (close_may (kh_block_size (st_kh s))) anyres (store_close e s).
Proof.
  unfold store_close. apply (ao_bind _ anyres).
  - eapply ao_weaken; [apply ops_flush| |auto]. intros o Ho. left. exact Ho.
  - intros s' _. destruct (st_ec s'); [constructor; exact I|]. apply ops_res, ao_unit. right. reflexivity.
Qed.

(** ** Recovery and opening *)
Lemma look_recover {A} (p : prog (res A)) : reads p -> allops recover_may (okres anyres) p.
Proof.
  intros H. apply ops_any. eapply ao_weaken; [exact H| |auto].
  intros o Ho. destruct o; simpl in *; auto; contradiction.
Qed.
Lemma look_recover' {A} (p : prog A) : reads p -> allops recover_may anyres p.
Proof.
  intros H. eapply ao_weaken; [exact H| |auto].
  intros o Ho. destruct o; simpl in *; auto; contradiction.
Qed.

Lemma dec_cap b n : kh_capacity (dec_key_header b n) = bucket_capacity (kh_block_size (dec_key_header b n)).
Proof. reflexivity. Qed.
Lemma cap_block bs : 1 <= bucket_capacity bs -> 104 <= bs.
Proof.
  unfold bucket_capacity, key_hdr_size. intros H.
  destruct (bs <? 104) eqn:E; [|apply N.ltb_ge in E; exact E]. cbn [orb] in H. lia.
Qed.
Lemma verify_key_cap H kh : verify_key H kh = Ok tt -> 1 <= kh_capacity kh.
Proof.
  unfold verify_key. do 5 (destruct (_ : bool); [discriminate|]).
  destruct (kh_capacity kh <? 1) eqn:E; [discriminate|]. intros _. apply N.ltb_ge in E. exact E.
Qed.

Lemma ops_replay e dh lh a b : allops recover_may (okres anyres) (recover_replay e dh lh a b).
Proof.
  unfold recover_replay.
  apply (ao_ebind _ (fun kh => kh_capacity kh = bucket_capacity (kh_block_size kh))).
  { unfold read_key_header. apply (ao_ebind _ anyres); [apply ao_data; exact I|]. intros d _.
    apply (ao_ebind _ anyres); [apply ao_num; exact I|]. intros n _. apply ao_pret. apply dec_cap. }
  intros kh Hc. apply (ao_ebind _ (fun _ => 104 <= kh_block_size kh)).
  { apply ao_lift. destruct (verify_key (e_hasher e) kh) as [[]|er] eqn:E; [|exact I].
    apply verify_key_cap in E. rewrite Hc in E. apply cap_block, E. }
  intros _ Hb. apply (ao_ebind _ anyres); [apply ao_lift; destruct (verify_dat_key _ _ _); exact I|]. intros _ _.
  apply (ao_ebind _ anyres); [apply ao_lift; destruct (verify_key_log _ _ _); exact I|]. intros _ _.
  cbv zeta. apply (ao_loop _ anyres anyres); [|exact I]. intros [bk r] _. unfold recover_step.
  destruct (br_eof r); [constructor; exact I|].
  apply (ao_bind _ anyres); [apply look_recover', reads_br_prepare|].
  intros [[is r1]|er] _; [|destruct er; constructor; exact I].
  apply (ao_bind _ anyres); [apply look_recover', reads_bk_read_bulk|]. intros [b2 x] _.
  assert (W : forall (x : res breader), allops recover_may anyres (if negb (bk_spill b2 =? 0) && (a <? bk_spill b2 + bucket_size (kh_capacity kh))
      then Ret (inr (Er invalid_log_spill))
      else if kh_buckets kh <? rd64 is then Ret (inr (Er invalid_log_index))
      else
        bind (bk_write b2 FKey false ((rd64 is + 1) * kh_block_size kh)) (fun w =>
        match x, w with
        | Er e, _ => Ret (inr (Er e))
        | Ok r, Ok _ => Ret (inl (b2, r))
        | Ok _, Er e => Ret (inr (Er e))
        end) : prog ((bucket * breader) + res unit))).
  { intros y. destruct (negb _ && _); [constructor; exact I|]. destruct (kh_buckets kh <? _); [constructor; exact I|].
    eapply ao_bind.
    - unfold bk_write. apply ao_unit. split; [reflexivity|]. split; [reflexivity|]. cbn beta. nia.
    - intros [u|er] _; destruct y; constructor; exact I. }
  apply (ao_weaken recover_may recover_may anyres); [|auto|intros [[? ?]|[?|?]] _; exact I].
  pose proof (W x) as Wx. destruct x as [r2|[]]; first [exact Wx|constructor; exact I].
Qed.

Lemma ops_clear_log : allops recover_may (okres anyres) recover_clear_log.
Proof.
  unfold recover_clear_log. apply ops_unit_b; [intros _; reflexivity|intros]. apply ops_unit_b; [exact I|intros].
  apply ao_unit. discriminate.
Qed.

Lemma ops_recover e : allops recover_may (okres anyres) (recover e).
Proof.
  unfold recover. apply ops_unit_b; [exact I|intros]. apply ops_num_b; [exact I|intros ds].
  apply (ao_ebind _ anyres); [apply look_recover, reads_dh|]. intros dh _.
  apply (ao_ebind _ anyres); [apply look_recover, reads_lift|]. intros _ _.
  apply ops_unit_b; [exact I|intros]. apply ops_num_b; [exact I|intros ks].
  destruct (ks <=? key_hdr_size).
  { apply (ao_ebind _ anyres).
    - unfold erase_file. eapply ao_bind; [apply ao_unit; discriminate|].
      intros [u|[]] _; constructor; exact I.
    - intros _ _. apply ops_unit_b; [discriminate|intros]. apply ao_pfail. }
  apply (ao_bind _ anyres); [apply look_recover', reads_open|].
  intros [u|er] _; [|destruct er; constructor; exact I].
  apply ops_num_b; [exact I|intros ls]. apply (ao_bind _ anyres); [apply look_recover', reads_lh|].
  intros [lh|er] _; [|destruct er; try apply ao_pfail; apply ops_clear_log].
  apply (ao_ebind _ anyres); [apply look_recover, reads_lift|]. intros _ _.
  apply (ao_ebind _ anyres). { destruct (_ =? 0); [apply ao_pret; exact I|apply ops_replay]. }
  intros _ _. apply (ao_ebind _ anyres); [|intros; apply ops_clear_log].
  unfold recover_trunc_files. apply ops_unit_b; [discriminate|intros]. apply ops_unit_b; [exact I|intros].
  destruct (negb _); [|apply ao_unit; discriminate].
  apply ops_unit_b; [discriminate|intros]. apply ao_unit; exact I.
Qed.

Lemma ops_open e : allops open_may anyres (store_open e).
Proof.
  assert (L : forall A (p : prog (res A)), reads p -> allops open_may (okres anyres) p).
  { intros A p H. eapply ao_weaken; [apply look_recover, H| |auto]. intros o Ho. left. exact Ho. }
  apply ops_res. unfold store_open. apply (ao_ebind _ anyres).
  { eapply ao_weaken; [apply ops_recover| |auto]. intros o Ho. left. exact Ho. }
  intros _ _. do 2 (apply (ao_ebind _ anyres); [apply L, reads_open|intros _ _]).
  apply ops_unit_b; [right; reflexivity|intros].
  apply (ao_ebind _ anyres); [apply L, reads_dh|intros dh _].
  apply (ao_ebind _ anyres); [apply L, reads_lift|intros _ _].
  apply (ao_ebind _ anyres); [apply L, reads_kh|intros kh _].
  do 2 (apply (ao_ebind _ anyres); [apply L, reads_lift|intros _ _]).
  cbv zeta. destruct (_ <? 1); [apply ao_pfail|apply ao_pret; exact I].
Qed.

(** ** rekey() *)
Definition dat_reads (o : io) : Prop := match o with IoSize f | IoRead f _ _ => f = FDat | _ => False end.
Lemma dat_rekey o : dat_reads o -> rekey_may o.
Proof. destruct o; simpl; auto; contradiction. Qed.

Definition on_dat (r : breader) : Prop := br_file r = FDat.
Lemma ops_br_prepare r n : on_dat r ->
  allops rekey_may (okres (fun x => on_dat (snd x))) (br_prepare r n).
Proof.
  intros Hr. unfold br_prepare. cbv zeta. apply (ao_ebind _ on_dat); [|intros r' Hr'; apply ao_pret; exact Hr'].
  destruct (_ <? n); [|apply ao_pret; exact Hr]. destruct (_ <? _); [apply ao_pfail|].
  apply (ao_ebind _ anyres); [apply ao_data; exact Hr|]. intros; apply ao_pret; exact Hr.
Qed.

Definition wr_dat (w : bwriter) : Prop := writer_to FDat w.
Lemma ops_rk_flush w : wr_dat w -> allops rekey_may (okres wr_dat) (bw_flush w).
Proof.
  intros [Hf Ha]. unfold bw_flush. destruct (blen (bw_buf w) =? 0); [apply ao_pret; split; auto|].
  apply (ao_ebind _ anyres).
  - apply ao_unit. rewrite Hf, Ha. reflexivity.
  - intros _ _. apply ao_pret. split; auto.
Qed.
Lemma ops_rk_spill b w : wr_dat w -> allops rekey_may (okres (fun x => wr_dat (snd x))) (maybe_spill b w).
Proof.
  intros Hw. unfold maybe_spill. destruct (bk_full b); [|apply ao_pret; auto].
  apply (ao_ebind _ wr_dat).
  - unfold bw_put. apply (ao_ebind _ wr_dat).
    + destruct (_ <? _); [apply ops_rk_flush; auto|apply ao_pret; auto].
    + intros w1 [Hf Ha]. apply ao_pret. split; auto.
  - intros w1 H1. destruct (_ <? _); [apply ao_pfail|apply ao_pret; auto].
Qed.

Definition rk_inv (st : rekey_state) : Prop := wr_dat (snd (fst st)) /\ on_dat (snd st).
Lemma ops_rk_step e kh b0 bn work total st : rk_inv st ->
  allops rekey_may (fun r => match r with inl s => rk_inv s | inr x => okres (fun y => wr_dat (snd y)) x end)
    (rekey_step e kh b0 bn work total st).
Proof.
  destruct st as [[[t buf] dw] r]. intros [Hw Hr]. cbn [fst snd] in Hw, Hr. unfold rekey_step.
  destruct (br_eof r); [constructor; exact Hw|]. cbv zeta.
  eapply ao_bind; [apply ops_br_prepare, Hr|]. intros [[is r1]|er] H1; [|constructor; exact I]. cbn [okres snd] in H1.
  destruct (0 <? rd_size48 is).
  - eapply ao_bind; [apply ops_br_prepare, H1|]. intros [[is2 r2]|er] H2; [|constructor; exact I]. cbn [okres snd] in H2.
    destruct (_ || _); [constructor; split; [exact Hw|exact H2]|].
    apply (ao_bind _ (okres (fun x => wr_dat (snd x)))).
    + eapply ao_ebind; [apply ops_rk_spill, Hw|]. intros [b3 w3] H3. cbn [snd] in H3.
      apply (ao_ebind _ anyres); [apply ao_lift; destruct (bk_insert _ _ _ _); exact I|].
      intros b4 _. apply ao_pret. exact H3.
    + intros [[b3 w3]|er] H3; constructor; [|exact I]. split; [exact H3|exact H2].
  - eapply ao_bind; [apply ops_br_prepare, H1|]. intros [[is2 r2]|er] H2; [|constructor; exact I]. cbn [okres snd] in H2.
    eapply ao_bind; [apply ops_br_prepare, H2|]. intros [[is3 r3]|er] H3; [|constructor; exact I].
    constructor. split; [exact Hw|exact H3].
Qed.

Lemma ops_rekey e a : allops rekey_may anyres (rekey e a).
Proof.
  apply ops_res. unfold rekey. apply (ao_ebind _ anyres).
  { unfold rekey_start. apply ops_unit_b; [discriminate|intros]. apply (ao_ebind _ anyres).
    { unfold read_dat_header. apply (ao_ebind _ anyres); [apply ao_data; reflexivity|]. intros; apply ao_pret; exact I. }
    intros dh _. apply (ao_ebind _ anyres); [apply ao_lift; destruct (verify_dat dh); exact I|]. intros _ _.
    apply ops_num_b; [reflexivity|intros n]. eapply ao_bind; [apply ao_unit; discriminate|].
    intros [u|[]] _; constructor; exact I. }
  intros [dh ds] _. destruct (rekey_lf _) as [lf|]; [|apply ao_pfail]. destruct (ra_buckets a) as [bu|]; [|apply ao_pfail].
  destruct (_ =? 0); [apply ao_pfail|]. cbv zeta. apply (ao_ebind _ anyres).
  { unfold rekey_create.
    repeat first [apply ops_unit_b; [first [exact I|reflexivity|discriminate]|intros]|apply ao_unit; discriminate]. }
  intros _ _. unfold rekey_build. cbv zeta. apply (ao_ebind _ (fun x => wr_dat (snd x))).
  - apply (ao_loop _ (fun st => wr_dat (snd st))); [|split; reflexivity].
    intros [[b0 t] dw] Hw. cbn [snd] in Hw. unfold rekey_pass. destruct (_ <=? b0); [constructor; exact Hw|]. cbv zeta.
    eapply ao_bind; [eapply ao_loop with (I := rk_inv) (R := fun y : list (N * N) * bytes * bwriter => wr_dat (snd y))|].
    + intros s Hs. apply ops_rk_step, Hs.
    + split; [exact Hw|reflexivity].
    + intros [[[t' buf] w']|er] H; [|constructor; exact I].
      eapply ao_bind; [apply ao_unit; exact I|]. intros [u|er] _; constructor; [exact H|exact I].
  - intros [t dw] Hw. apply (ao_ebind _ wr_dat); [apply ops_rk_flush, Hw|]. intros _ _.
    apply ops_unit_b; [reflexivity|intros]. apply ao_pret. exact I.
Qed.

(** ** Consequences for the files, when operations may fail *)
Lemma reads_fsteps {A} (p : prog A) w S q w' S' : reads p -> fsteps ord p w S q w' S' -> w' = w.
Proof.
  intros Hp Hs. induction Hs as [|o k w S p' w' S' H IH|o k w S n w1 p' w' S' Hf H IH]; [reflexivity| |];
    inversion Hp as [|o' k' Ho Hk]; subst.
  - rewrite IH by apply Hk. apply pure_exec, Ho.
  - rewrite IH by apply Hk. destruct o; simpl in Ho, Hf; try contradiction; exact Hf.
Qed.

Definition head_is (bs : N) (H : bytes) (w : world) : Prop :=
  exists c, w_key w = Some c /\ bs <= blen c /\ btake bs c = H.

Lemma torn_head bs off len c c' :
  bs <= off -> bs <= blen c -> torn_write off len c c' -> bs <= blen c' /\ btake bs c' = btake bs c.
Proof.
  intros Ho Hc (Hl & Hn). split; [lia|].
  assert (L1 : blen (btake bs c') = bs) by (rewrite blen_btake_le; lia).
  assert (L2 : blen (btake bs c) = bs) by (rewrite blen_btake_le; lia).
  apply list_eq_nth.
  - unfold blen in L1, L2. lia.
  - intros i d Hi. assert (Hb : N.of_nat i < bs) by (unfold blen in L1; lia).
    pose proof (Hn (N.of_nat i)) as X. unfold nthN in X. rewrite Nat2N.id in X.
    assert (N1 : forall l : bytes, bs <= blen l -> nth i (btake bs l) d = nth i l 0).
    { intros l Hl'. rewrite (nth_indep _ d 0) by (rewrite <- (Nat2N.id i); unfold btake; rewrite firstn_length; unfold blen in Hl'; lia).
      symmetry. rewrite <- (btake_bdrop bs l) at 1. rewrite app_nth1; [reflexivity|].
      unfold btake; rewrite firstn_length; unfold blen in Hl'; lia. }
    rewrite !N1 by lia. apply X; lia.
Qed.

Lemma head_exec bs H o w : flush_may bs o -> head_is bs H w -> head_is bs H (fst (exec o w)).
Proof.
  intros Ho (c & Hk & Hl & Hh).
  destruct o as [f|f|f|f|f off len|f ap off d|f|f n]; simpl in Ho; try contradiction;
    try (unfold exec; destruct (wget w f); repeat match goal with |- context [if ?b then _ else _] => destruct b end;
         cbn [fst]; exists c; auto; fail).
  - destruct f.
    + unfold exec. destruct (wget w FDat); [|exists c; auto].
      destruct (_ && _); cbn [fst]; exists c; auto.
    + destruct Ho as [-> (n & ->)]. unfold exec. change (wget w FKey) with (w_key w). rewrite Hk. cbn [andb fst wset w_key].
      exists (bwrite ((n + 1) * bs) d c). split; [reflexivity|].
      rewrite <- Hh. apply (torn_head bs ((n + 1) * bs) (blen d)); [nia|exact Hl|apply torn_write_full].
    + unfold exec. destruct (wget w FLog); [|exists c; auto].
      destruct (_ && _); cbn [fst]; exists c; auto.
  - destruct Ho as [-> ->]. unfold exec. destruct (wget w FLog); exists c; auto.
Qed.

Lemma head_failed bs H o w w' : flush_may bs o -> failed ord o w w' -> head_is bs H w -> head_is bs H w'.
Proof.
  intros Ho Hf (c & Hk & Hl & Hh).
  destruct o as [f|f|f|f|f off len|f ap off d|f|f n]; simpl in Ho; try contradiction;
    try (simpl in Hf; subst w'; exists c; auto; fail).
  - unfold failed in Hf. destruct f.
    + destruct (wget w FDat); [|subst; exists c; auto]. destruct (_ && _); [subst; exists c; auto|].
      destruct Hf as (x' & -> & _). exists c; auto.
    + destruct Ho as [-> (n & ->)]. change (wget w FKey) with (w_key w) in Hf. rewrite Hk in Hf. cbn [andb log_in_order] in Hf.
      destruct Hf as (x' & -> & Ht). exists x'. split; [reflexivity|].
      rewrite <- Hh. apply (torn_head bs ((n + 1) * bs) (blen d)); [nia|exact Hl|exact Ht].
    + destruct (wget w FLog); [|subst; exists c; auto]. destruct (_ && _); [subst; exists c; auto|].
      destruct Hf as (x' & -> & _). exists c; auto.
  - destruct Ho as [-> ->]. unfold failed in Hf. destruct (wget w FLog); [|subst; exists c; auto].
    destruct Hf as (x' & -> & _). exists c; auto.
Qed.

Lemma flush_head e s w S q w' S' c :
  w_key w = Some c -> kh_block_size (st_kh s) <= blen c ->
  fsteps ord (store_flush e s) w S q w' S' ->
  exists c', w_key w' = Some c' /\ btake (kh_block_size (st_kh s)) c' = btake (kh_block_size (st_kh s)) c.
Proof.
  intros Hk Hl Hs. set (bs := kh_block_size (st_kh s)) in *.
  assert (G : forall (p : prog store), fsteps ord p w S q w' S' -> allops (flush_may bs) anyres p ->
    head_is bs (btake bs c) w -> head_is bs (btake bs c) w').
  { clear. intros p Hs. induction Hs as [|o k w S p' w' S' H IH|o k w S n w1 p' w' S' Hf H IH]; intros Ha Hh; [exact Hh| |];
      inversion Ha as [|o' k' Ho Hk]; subst; apply IH; auto.
    - apply head_exec; auto.
    - eapply head_failed; eauto. }
  destruct (G _ Hs (ops_flush e s)) as (c' & H1 & H2 & H3); [exists c; auto|]. exists c'. auto.
Qed.
