(** Buffered readers and writers behave like direct access. *)
From Verif Require Import Model.Bytes Model.Err Model.IO Model.BulkIO
  Proofs.BytesFacts Proofs.IOFacts.

(** A reader over contents [c]: what is buffered is what precedes the file
    position. *)
Record br_inv (c : bytes) (r : breader) : Prop := BrInv {
  bri_last : br_last r <= blen c;
  bri_off : br_off r <= br_last r;
  bri_le : blen (br_avail r) <= br_off r;
  bri_av : br_avail r = bsub (br_off r - blen (br_avail r)) (blen (br_avail r)) c }.

Lemma br_make_inv c f off last n :
  off <= last -> last <= blen c -> br_inv c (br_make f off last n).
Proof. intros; constructor; simpl; rewrite ?blen_nil; try lia. reflexivity. Qed.

Lemma br_make_offset f off last n : br_offset (br_make f off last n) = off.
Proof. unfold br_offset; simpl. rewrite blen_nil. lia. Qed.

Lemma run_br_prepare c r w needed :
  br_inv c r -> wget w (br_file r) = Some c -> br_offset r + needed <= br_last r ->
  exists r', run (br_prepare r needed) w = (w, Ok (bsub (br_offset r) needed c, r')) /\
    br_inv c r' /\ br_offset r' = br_offset r + needed /\
    br_file r' = br_file r /\ br_last r' = br_last r.
Proof.
  intros [H1 H2 H3 H4] Hw Hn. unfold br_prepare.
  set (av := blen (br_avail r)) in *. unfold br_offset in *. fold av in Hn |- *.
  destruct (N.ltb_spec av needed) as [L|L].
  - replace (br_last r <? br_off r + needed - av) with false by lia.
    set (cap := if br_cap r <? needed then needed else br_cap r).
    assert (needed <= cap) by (unfold cap; destruct (N.ltb_spec (br_cap r) needed); lia).
    set (n := N.min (cap - av) (br_last r - br_off r)).
    assert (Hr : run (p_read (br_file r) (br_off r) n) w = (w, Ok (bsub (br_off r) n c)))
      by (apply run_read; auto; lia).
    assert (E : br_avail r ++ bsub (br_off r) n c = bsub (br_off r - av) (av + n) c).
    { rewrite H4 at 1. rewrite bsub_split. f_equal. f_equal. lia. }
    erewrite run_ebind_ok.
    2: { rewrite (run_ebind_ok _ _ _ _ _ Hr). reflexivity. }
    simpl. rewrite E. eexists. split.
    { unfold bsub at 1. rewrite btake_btake. replace (N.min needed (av + n)) with needed by lia.
      reflexivity. }
    assert (Hl : blen (bsub (br_off r - av) (av + n) c) = av + n) by (apply blen_bsub; lia).
    cbn [br_avail br_off br_last br_file]. repeat split; auto; cbn [br_avail br_off br_last br_file];
      rewrite ?blen_bdrop, ?Hl; try lia.
    unfold bsub. rewrite bdrop_btake, bdrop_bdrop.
    f_equal; try lia; f_equal; lia.
  - erewrite run_ebind_ok by reflexivity. simpl. eexists. split.
    { rewrite H4 at 1. unfold bsub. rewrite btake_btake. fold av.
      replace (N.min needed av) with needed by lia. reflexivity. }
    repeat split; auto; cbn [br_avail br_off br_last br_file];
      rewrite ?blen_bdrop; fold av; try lia.
    rewrite H4 at 1. fold av. unfold bsub. rewrite bdrop_btake, bdrop_bdrop.
      f_equal; try lia; f_equal; lia.
Qed.

Lemma run_br_prepare_short c r w needed :
  br_inv c r -> br_last r < br_offset r + needed ->
  run (br_prepare r needed) w = (w, Er short_read).
Proof.
  intros [H1 H2 H3 H4] Hn. unfold br_prepare, br_offset in *.
  replace (blen (br_avail r) <? needed) with true by lia.
  replace (br_last r <? br_off r + needed - blen (br_avail r)) with true by lia.
  reflexivity.
Qed.

(** A writer that has appended to contents [c] so far: the file and the buffer
    together. *)
Record bw_inv (f : fname) (w : world) (bw : bwriter) (c : bytes) : Prop := BwInv {
  bwi_file : bw_file bw = f;
  bwi_app : bw_append bw = true;
  bwi_c : exists d, wget w f = Some d /\ bw_off bw = blen d /\ c = d ++ bw_buf bw }.

Lemma bw_make_inv f w c n : wget w f = Some c -> bw_inv f w (bw_make f true (blen c) n) c.
Proof. intros; constructor; auto. exists c. simpl. rewrite app_nil_r. auto. Qed.

Lemma bw_offset_inv f w bw c : bw_inv f w bw c -> bw_offset bw = blen c.
Proof. intros [_ _ (d & _ & Ho & ->)]. unfold bw_offset. rewrite Ho, blen_app. auto. Qed.

Lemma run_bw_flush f w bw c :
  bw_inv f w bw c ->
  exists bw', run (bw_flush bw) w = (wset w f (Some c), Ok bw') /\
    bw_inv f (wset w f (Some c)) bw' c /\ bw_buf bw' = [] /\ bw_offset bw' = bw_offset bw.
Proof.
  intros H. pose proof (bw_offset_inv _ _ _ _ H) as Hof. destruct H as [Hf Ha (d & Hd & Ho & Hc)].
  unfold bw_flush. destruct (N.eqb_spec (blen (bw_buf bw)) 0) as [E|E].
  - apply blen_0 in E. exists bw. rewrite E, app_nil_r in Hc. subst d.
    assert (Hw : wset w f (Some c) = w) by (rewrite <- Hd; apply wset_same).
    rewrite Hw. repeat split; auto. exists c. rewrite E, app_nil_r. auto.
  - rewrite Hf, Ha. erewrite run_ebind_ok by (apply run_append; eauto).
    simpl. rewrite <- Hc. eexists; split; [reflexivity|]. repeat split; auto.
    + exists c. simpl. rewrite wget_wset_same, app_nil_r, Ho. split; [auto|split; auto].
      rewrite Hc, blen_app. auto.
    + unfold bw_offset in *; simpl. rewrite blen_nil, Hof. lia.
Qed.

(** Putting [d]: the world becomes the old one or the old one with the buffer
    written. *)
Lemma run_bw_put f w bw c d :
  bw_inv f w bw c ->
  exists x bw', run (bw_put bw d) w = (wset w f (Some x), Ok bw') /\
    bw_inv f (wset w f (Some x)) bw' (c ++ d) /\ bw_offset bw' = bw_offset bw + blen d.
Proof.
  intros H. unfold bw_put.
  assert (exists x bw1, run (if bw_cap bw <? blen (bw_buf bw) + blen d
      then bw_flush bw else pret bw) w = (wset w f (Some x), Ok bw1) /\
      bw_inv f (wset w f (Some x)) bw1 c /\ bw_offset bw1 = bw_offset bw) as (x & bw1 & Hr & Hi & Hof).
  { destruct (bw_cap bw <? blen (bw_buf bw) + blen d).
    - destruct (run_bw_flush _ _ _ _ H) as (bw' & H1 & H2 & _ & H3). eauto.
    - pose proof H as [_ _ (d0 & Hd & _)].
      assert (Hw : wset w f (Some d0) = w) by (rewrite <- Hd; apply wset_same).
      exists d0, bw. rewrite Hw. auto. }
  rewrite (run_ebind_ok _ _ _ _ _ Hr). exists x. simpl. eexists; split; [reflexivity|].
  split.
  - destruct Hi as [Hf Ha (d0 & Hd & Ho & Hc)]. constructor; auto.
    exists d0. simpl. rewrite Hc, app_assoc. auto.
  - unfold bw_offset in *; simpl. rewrite blen_app. lia.
Qed.

(** The size of the buffer and its fill keep a bound [Z]. *)
Definition buf_ok (Z : N -> Prop) : Prop := Z 65600 /\ forall a b, a <= b -> Z b -> Z a.
Definition bw_small (Z : N -> Prop) (bw : bwriter) : Prop := Z (blen (bw_buf bw)) /\ Z (bw_cap bw).

Lemma bw_flush_small Z f w bw c w' bw' :
  buf_ok Z -> bw_inv f w bw c -> bw_small Z bw -> run (bw_flush bw) w = (w', Ok bw') -> bw_small Z bw'.
Proof.
  intros [_ HZ] H [S1 S2] Hr. destruct H as [Hf Ha (d & Hd & Ho & Hc)].
  unfold bw_flush in Hr. destruct (N.eqb_spec (blen (bw_buf bw)) 0) as [E|E].
  - injection Hr; intros; subst. split; auto.
  - rewrite Hf, Ha in Hr. erewrite run_ebind_ok in Hr by (apply run_append; eauto).
    injection Hr; intros; subst. split; cbn [bw_buf bw_cap]; [|exact S2].
    rewrite blen_nil. eapply HZ; [|exact S1]. lia.
Qed.

Lemma bw_put_small Z f w bw c d w' bw' :
  buf_ok Z -> bw_inv f w bw c -> bw_small Z bw -> Z (blen d) ->
  run (bw_put bw d) w = (w', Ok bw') -> bw_small Z bw'.
Proof.
  intros HZ0 H [S1 S2] Hd Hr. pose proof HZ0 as [_ HZ]. unfold bw_put in Hr.
  destruct (N.ltb_spec (bw_cap bw) (blen (bw_buf bw) + blen d)) as [L|L].
  - destruct (run_bw_flush _ _ _ _ H) as (bw1 & Hr1 & _ & He & _).
    destruct (bw_flush_small _ _ _ _ _ _ _ HZ0 H (conj S1 S2) Hr1) as [_ T2].
    rewrite (run_ebind_ok _ _ _ _ _ Hr1) in Hr. injection Hr; intros; subst.
    split; cbn [bw_buf bw_cap]; [rewrite He; exact Hd|].
    destruct (bw_cap bw1 <? blen d); auto.
  - rewrite (run_ebind_ok _ _ w w bw) in Hr by reflexivity. injection Hr; intros; subst.
    split; cbn [bw_buf bw_cap].
    + rewrite blen_app. eapply HZ; [|exact S2]. lia.
    + destruct (bw_cap bw <? blen d); auto.
Qed.
