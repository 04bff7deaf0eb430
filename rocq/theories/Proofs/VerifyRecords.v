(** verify() of data files that consist of well formed records. *)
From Verif Require Import Model.Bytes Model.Err Model.Field Model.Format Model.IO Model.BulkIO
  Model.Bucket Model.Pool Model.Recover Model.Create Model.Store Model.History Model.Visit Model.Verify Model.Events
  Spec SpecFormat SpecHeader SpecDisk SpecVisit SpecVerify Proofs.BytesFacts Proofs.FieldFacts Proofs.IOFacts Proofs.FormatFacts
  Proofs.VisitFacts Proofs.RefuseFacts Proofs.VerifySound Proofs.VerifySoundFast Proofs.VerifyIndex.
Opaque loop.

Definition as_chunk (r : record) : chunk :=
  match r with Value k v => CVal (be 6 (blen v)) k v | Spill c => CSpill (be 6 0 ++ be 2 (blen c)) c end.

Lemma as_chunk_image r : chunk_image (as_chunk r) = image r.
Proof. destruct r; cbn [as_chunk chunk_image image]; rewrite <- ?app_assoc; reflexivity. Qed.
Lemma as_chunk_images rs : flat_map chunk_image (map as_chunk rs) = flat_map image rs.
Proof. induction rs; cbn [map flat_map]; rewrite ?as_chunk_image, ?IHrs; reflexivity. Qed.

Lemma blen_be6 n : blen (be 6 n) = 6. Proof. rewrite <- wr48_be. reflexivity. Qed.
Lemma blen_be2 n : blen (be 2 n) = 2. Proof. rewrite <- wr16_be. reflexivity. Qed.
Lemma be_value_6 n : n < 2 ^ 48 -> be_value (be 6 n) = n.
Proof. intros H. rewrite <- wr48_be. rewrite <- rd48_be; [apply rd_wr48; exact H|apply bytes_ok_wr48|reflexivity]. Qed.
Lemma be_value_2 n : n < 2 ^ 16 -> be_value (be 2 n) = n.
Proof. intros H. rewrite <- wr16_be. rewrite <- rd16_be; [apply rd_wr16; exact H|apply bytes_ok_wr16|reflexivity]. Qed.

Lemma as_chunk_ok ks r : record_ok ks r -> chunk_ok ks (as_chunk r).
Proof.
  destruct r as [k v|c]; cbn [record_ok as_chunk chunk_ok].
  - intros (A & B). split; [apply blen_be6|]. split; [exact A|]. split; [lia|]. rewrite be_value_6 by lia. apply N.mod_small. lia.
  - intros A. rewrite blen_app, blen_be6, blen_be2. split; [reflexivity|]. change (firstn 6 ?x) with (btake 6 x).
    rewrite btake_app_eq by (symmetry; apply blen_be6). reflexivity.
Qed.
Lemma as_chunk_size ks r : record_ok ks r -> by_size (as_chunk r).
Proof.
  destruct r as [k v|c]; cbn [record_ok as_chunk by_size]; auto. intros A. change (skipn 6 ?x) with (bdrop 6 x).
  rewrite bdrop_app_eq by (symmetry; apply blen_be6). apply be_value_2. exact A.
Qed.
Lemma as_chunk_count r : bucket_inside r -> by_count (as_chunk r).
Proof. destruct r as [k v|c]; cbn [bucket_inside as_chunk by_count]; auto. Qed.
Lemma as_chunk_plain ks r : record_ok ks r -> plain (as_chunk r).
Proof. destruct r as [k v|c]; cbn [record_ok as_chunk plain]; auto. intros A. apply be_value_6. lia. Qed.

Lemma in_values rs k v : In (k, v) (values rs) <-> In (Value k v) rs.
Proof.
  induction rs as [|[k' v'|c] rs IH]; cbn [values In]; [tauto| |].
  - rewrite IH. split; (intros [H|H]; [left; congruence|right; auto]).
  - rewrite IH. split; [auto|intros [H|H]; [discriminate|auto]].
Qed.

Lemma in_chunks rs m k x : In (CVal m k x) (map as_chunk rs) <-> m = be 6 (blen x) /\ In (k, x) (values rs).
Proof.
  rewrite in_values, in_map_iff. split.
  - intros ([k' x'|c] & E & H); cbn [as_chunk] in E; [|discriminate E]. injection E as <- <- <-. auto.
  - intros (-> & H). exists (Value k x). auto.
Qed.

Lemma verify_records e w buf w1 v hdr k rs :
  w_dat w = Some (hdr ++ flat_map image rs) -> blen hdr = 92 -> w_key w = Some k -> w_log w = None ->
  bytes_ok (hdr ++ flat_map image rs) -> bytes_ok k -> files_fit w ->
  Forall (record_ok (num_at 26 2 hdr)) rs -> Forall bucket_inside rs ->
  run (verify e buf) w = (w1, Ok v) ->
  w1 = w /\ exists w' s, run (store_open e) w = (w', Ok s) /\ same_files w' w /\
    (forall kk x data, In (kk, x) (values rs) -> 0 < blen data < 2 ^ 32 ->
       run (store_insert e s kk data) w' = (w', Er key_exists)) /\
    (vi_algorithm v = 0 -> vi_key_count v = vi_value_count v ->
     forall kk x, In (kk, x) (values rs) ->
       exists x', In (kk, x') (values rs) /\ run (store_fetch e s kk) w' = (w', Ok x')).
Proof.
  intros Wd Hh Wk Wl Dok Kok Hfit Hrs Hin Hr.
  destruct (verify_sound e _ k w buf w1 v Wd Wk Wl Dok Kok Hfit Hr) as (-> & cs & w' & s & C1 & C2 & C3 & C4 & C5 & C6 & C7).
  split; auto. exists w', s. split; auto. split; auto.
  rewrite bdrop_app_eq in C1 by auto.
  assert (Eks : num_at 26 2 (hdr ++ flat_map image rs) = num_at 26 2 hdr).
  { unfold num_at, bytes_at. f_equal. rewrite skipn_app, firstn_app.
    assert (X : length hdr = 92%nat) by (unfold blen in Hh; lia). rewrite skipn_length, X.
    change (2 - (92 - 26))%nat with 0%nat. cbn [firstn]. apply app_nil_r. }
  rewrite Eks in C2.
  assert (cs = map as_chunk rs).
  { assert (F1 : Forall (chunk_ok (num_at 26 2 hdr)) (map as_chunk rs)).
    { apply Forall_map. eapply Forall_impl; [|exact Hrs]. apply as_chunk_ok. }
    destruct (vi_algorithm v =? 0).
    - apply (split_unique (num_at 26 2 hdr) by_count); auto.
      + apply Forall_map. eapply Forall_impl; [|exact Hin]. apply as_chunk_count.
      + rewrite as_chunk_images. congruence.
    - apply (split_unique (num_at 26 2 hdr) by_size); auto.
      + apply Forall_map. eapply Forall_impl; [|exact Hrs]. apply as_chunk_size.
      + rewrite as_chunk_images. congruence. }
  subst cs. split.
  - intros kk x data H Hd. apply (C6 (be 6 (blen x)) kk x data); auto. apply in_chunks. auto.
  - intros A B kk x H. destruct (C7 A B) with (m := be 6 (blen x)) (kk := kk) (x := x) as (m' & x' & D1 & D2).
    + apply Forall_map. eapply Forall_impl; [|exact Hrs]. apply as_chunk_plain.
    + apply in_chunks. auto.
    + exists x'. split; auto. apply in_chunks in D1. tauto.
Qed.
