(** Buckets built in a cleared buffer keep zeros behind their entries. *)
From Verif Require Import Model.Bytes Model.Err Model.Field Model.Format Model.IO
  Model.BulkIO Model.Bucket
  Proofs.BytesFacts Proofs.FieldFacts Proofs.IOFacts Proofs.BucketFacts
  Proofs.BulkFacts Proofs.Table Proofs.SplitFacts Proofs.CommitFacts.

(** Zeros behind the entries. *)
Definition zero_tail (b : bucket) : Prop :=
  forall i, bucket_size (bk_size b) <= i -> nthN (bk_blob b) i 0 = 0.

Lemma nthN_zeros n i : nthN (zeros n) i 0 = 0.
Proof.
  unfold nthN, zeros. destruct (nth_in_or_default (N.to_nat i) (repeat 0 (N.to_nat n)) 0) as [X|X]; [|exact X].
  apply repeat_spec in X. exact X.
Qed.

Lemma nthN_over {A} (l : list A) i d : blen l <= i -> nthN l i d = d.
Proof. unfold nthN, blen. intros X. apply nth_overflow. lia. Qed.

Lemma nthN_bwrite_after o d c i : o + blen d <= i -> nthN (bwrite o d c) i 0 = nthN c i 0.
Proof.
  intros Hi. unfold bwrite.
  set (c' := c ++ zeros (o - blen c)).
  assert (Hc : forall j, nthN c' j 0 = nthN c j 0).
  { intros j. unfold c'. destruct (N.lt_ge_cases j (blen c)) as [L|L].
    - rewrite nthN_app_l by lia. reflexivity.
    - rewrite nthN_app_r, nthN_zeros, nthN_over by lia. reflexivity. }
  assert (Ho : o <= blen c') by (unfold c'; rewrite blen_app, blen_zeros; lia).
  rewrite nthN_app_r by (rewrite blen_btake; lia).
  rewrite blen_btake. replace (N.min o (blen c')) with o by lia.
  rewrite nthN_app_r by lia. rewrite nthN_bdrop, <- Hc. f_equal. lia.
Qed.

Lemma lb_loop_le n b h : forall first count, lb_loop n b h first count <= first + count.
Proof.
  induction n as [|n IH]; intros first count; cbn [lb_loop]; [lia|].
  destruct (N.eqb_spec count 0) as [E|E]; [lia|]. cbv zeta.
  assert (count / 2 < count) by (apply N.div_lt; lia).
  destruct (bk_hash_at b (first + count / 2) <? h); eapply N.le_trans; try apply IH; lia.
Qed.

Lemma lower_bound_le b h : bk_lower_bound b h <= bk_size b.
Proof. unfold bk_lower_bound. pose proof (lb_loop_le (Datatypes.S (N.size_nat (bk_size b))) b h 0 (bk_size b)). lia. Qed.

Lemma insert_zero b off size h b' : zero_tail b -> bk_insert b off size h = Ok b' -> zero_tail b'.
Proof.
  intros Hz. unfold bk_insert.
  destruct (bk_bs b <? 8 + (bk_size b + 1) * 18) eqn:E1; [discriminate|].
  destruct ((281474976710655 <? off) || (281474976710655 <? size)); [discriminate|].
  pose proof (lower_bound_le b h) as Hl. set (i := bk_lower_bound b h) in *.
  intros X. injection X as <-. intros j. cbn [bk_size bk_blob bk_update]. unfold bucket_size. intros Hj.
  assert (L1 : blen (enc_entry (Entry off size h)) = 18) by apply blen_enc_entry.
  rewrite nthN_bwrite_after by (rewrite L1; lia).
  rewrite nthN_bwrite_after by (rewrite blen_app, blen_wr16, blen_wr48; lia).
  rewrite nthN_bwrite_after.
  - apply Hz. unfold bucket_size. lia.
  - unfold bsub. rewrite blen_btake, blen_bdrop. lia.
Qed.

Lemma set_spill_zero bs sp : zero_tail (bk_set_spill (bk_empty bs) sp).
Proof.
  intros i Hi. unfold bk_set_spill, bk_update, bk_empty in *. cbn [bk_size bk_spill bk_blob] in *.
  unfold bucket_size in Hi.
  rewrite nthN_bwrite_after by (rewrite blen_app, blen_wr16, blen_wr48; lia). apply nthN_zeros.
Qed.

Lemma maybe_spill_zero b bw w w' b' bw' :
  zero_tail b -> run (maybe_spill b bw) w = (w', Ok (b', bw')) -> zero_tail b'.
Proof.
  intros Hz. unfold maybe_spill. destruct (bk_full b); [|intros X; injection X as _ <- _; auto].
  unfold ebind. rewrite run_bind. destruct (run (bw_put bw _) w) as [w1 [bw1|er]]; [|discriminate].
  destruct (281474976710655 <? bw_offset bw + 8); [discriminate|].
  intros X. injection X as _ <- _. apply set_spill_zero.
Qed.

Lemma add_zero b bw off size h w w' b' bw' :
  zero_tail b ->
  run ('(b, bw) <- maybe_spill b bw ;;
       b <- plift (bk_insert b off size h) ;;
       pret (b, bw)) w = (w', Ok (b', bw')) -> zero_tail b'.
Proof.
  intros Hz. unfold ebind. rewrite run_bind.
  destruct (run (maybe_spill b bw) w) as [w1 [[b1 bw1]|er]] eqn:E; [|discriminate].
  pose proof (maybe_spill_zero _ _ _ _ _ _ Hz E) as Hz1.
  unfold plift. cbn [bind run]. destruct (bk_insert b1 off size h) as [b2|er] eqn:E2; [|discriminate].
  intros X. injection X as _ <- _. eapply insert_zero; eauto.
Qed.

(** The block is then the image of the bucket. *)
Lemma zero_block bs b es sp : bk_rep bs b es sp -> zero_tail b -> bk_blob b = enc_block bs es sp.
Proof.
  intros R Hz. destruct (rep_blob _ _ _ _ R) as (pad & Hb). pose proof (rep_len _ _ _ _ R) as Hl.
  rewrite Hb, blen_app, blen_enc_bucket in Hl.
  rewrite Hb. unfold enc_block. f_equal. apply (nthN_ext _ _ 0).
  - rewrite blen_zeros. lia.
  - intros i Hi. rewrite nthN_zeros.
    specialize (Hz (bucket_size (blen es) + i)). rewrite (rep_size _ _ _ _ R), Hb in Hz.
    rewrite nthN_app_r in Hz by (rewrite blen_enc_bucket; lia). rewrite blen_enc_bucket in Hz.
    etransitivity; [|apply Hz; lia]. f_equal. lia.
Qed.

Lemma block_zero bs b es sp : bk_rep bs b es sp -> bk_blob b = enc_block bs es sp -> zero_tail b.
Proof.
  intros R Hb i Hi. rewrite (rep_size _ _ _ _ R) in Hi. rewrite Hb. unfold enc_block.
  rewrite nthN_app_r by (rewrite blen_enc_bucket; lia). apply nthN_zeros.
Qed.
