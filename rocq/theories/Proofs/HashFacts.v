(** Powers of two and the bucket index. *)
From Verif Require Import Model.Bytes Model.Format Model.Bucket Proofs.BytesFacts.

Lemma land_mask x j :
  x < 2 ^ (2 * j) -> (N.land x (N.shiftl (N.ones j) j) = 0 <-> x < 2 ^ j).
Proof.
  intros Hx.
  assert (E : N.land x (N.shiftl (N.ones j) j) = N.shiftl (N.land (N.shiftr x j) (N.ones j)) j).
  { apply N.bits_inj. intros i. rewrite N.land_spec.
    destruct (N.lt_ge_cases i j) as [L|L].
    - rewrite !N.shiftl_spec_low by auto. apply andb_false_r.
    - rewrite !N.shiftl_spec_high' by auto. rewrite N.land_spec, N.shiftr_spec' by auto.
      replace (i - j + j) with i by lia. auto. }
  rewrite E, N.land_ones, N.shiftl_mul_pow2, N.shiftr_div_pow2.
  pose proof (N.pow_nonzero 2 j ltac:(lia)).
  assert (x / 2 ^ j < 2 ^ j).
  { apply N.div_lt_upper_bound; auto. rewrite <- N.pow_add_r. replace (j + j) with (2 * j) by lia. auto. }
  rewrite (N.mod_small _ _ H0). split; intros Hz.
  - apply N.eq_mul_0 in Hz as [Hz|Hz]; [|congruence].
    apply N.div_small_iff in Hz; auto.
  - rewrite (N.div_small _ _ Hz). auto.
Qed.

Lemma ceil_pow2_step_spec x y t j :
  0 < x -> x < 2 ^ (2 * j) -> t = N.shiftl (N.ones j) j ->
  exists x' y', ceil_pow2_step (x, y) (t, j) = (x', y') /\
    0 < x' /\ x' < 2 ^ j /\ N.log2 x + y = N.log2 x' + y'.
Proof.
  intros Hx0 Hx ->. unfold ceil_pow2_step.
  pose proof (N.pow_nonzero 2 j ltac:(lia)) as Hj.
  destruct (N.eqb_spec (N.land x (N.shiftl (N.ones j) j)) 0) as [E|E].
  - apply land_mask in E; auto. do 2 eexists; split; [reflexivity|]. rewrite N.shiftr_0_r. lia.
  - assert (2 ^ j <= x) by (apply N.nlt_ge; intro L; apply E, land_mask; auto).
    do 2 eexists; split; [reflexivity|].
    rewrite N.log2_shiftr. rewrite N.shiftr_div_pow2.
    assert (j <= N.log2 x) by (apply N.log2_le_pow2; auto).
    split; [|split; [|lia]].
    + apply N.div_str_pos. lia.
    + apply N.div_lt_upper_bound; auto. rewrite <- N.pow_add_r. replace (j + j) with (2 * j) by lia. auto.
Qed.

Lemma land_pred x : 0 < x -> (N.land x (x - 1) = 0 <-> x = 2 ^ N.log2 x).
Proof.
  intros Hx. pose proof (N.log2_spec x Hx) as [H1 H2]. split; intros H.
  - destruct (N.eq_dec x (2 ^ N.log2 x)) as [E|E]; auto. exfalso.
    assert (N.log2 (x - 1) = N.log2 x) by (apply N.log2_unique; lia).
    assert (N.testbit (N.land x (x - 1)) (N.log2 x) = true).
    { rewrite N.land_spec, N.bit_log2 by lia. rewrite <- H0 at 1. rewrite N.bit_log2; auto.
      intro. assert (x = 1) by lia. subst. apply E. reflexivity. }
    rewrite H, N.bits_0 in H3. discriminate.
  - rewrite H. rewrite <- N.pred_sub. rewrite <- N.ones_equiv.
    rewrite N.land_ones. apply N.mod_same. apply N.pow_nonzero. lia.
Qed.

Lemma ceil_pow2_log2_up x :
  0 < x -> x < 18446744073709551616 -> ceil_pow2 x = 2 ^ N.log2_up x.
Proof.
  intros H0 Hx. unfold ceil_pow2.
  set (y0 := if N.land x (x - 1) =? 0 then 0 else 1).
  unfold ceil_pow2_table. cbn [fold_left].
  destruct (ceil_pow2_step_spec x y0 18446744069414584320 32 H0 Hx eq_refl) as (x1 & y1 & -> & A1 & B1 & C1).
  destruct (ceil_pow2_step_spec x1 y1 4294901760 16 A1 B1 eq_refl) as (x2 & y2 & -> & A2 & B2 & C2).
  destruct (ceil_pow2_step_spec x2 y2 65280 8 A2 B2 eq_refl) as (x3 & y3 & -> & A3 & B3 & C3).
  destruct (ceil_pow2_step_spec x3 y3 240 4 A3 B3 eq_refl) as (x4 & y4 & -> & A4 & B4 & C4).
  destruct (ceil_pow2_step_spec x4 y4 12 2 A4 B4 eq_refl) as (x5 & y5 & -> & A5 & B5 & C5).
  destruct (ceil_pow2_step_spec x5 y5 2 1 A5 B5 eq_refl) as (x6 & y6 & -> & A6 & B6 & C6).
  assert (x6 = 1) by (change (2 ^ 1) with 2 in B6; lia). subst x6.
  rewrite N.shiftl_1_l. f_equal. change (N.log2 1) with 0 in C6.
  assert (y6 = N.log2 x + y0) as -> by lia.
  pose proof (N.log2_spec x H0) as [P1 P2].
  unfold y0. destruct (N.eqb_spec (N.land x (x - 1)) 0) as [E|E].
  - apply land_pred in E; auto. rewrite E at 2. rewrite N.log2_up_pow2 by lia. lia.
  - assert (x <> 2 ^ N.log2 x) by (intro E'; apply E, land_pred; auto).
    symmetry. apply N.log2_up_unique; [lia|].
    rewrite N.add_1_r, N.pred_succ. lia.
Qed.

(** buckets and modulus are consistent: the modulus is the least power of two
    not below the number of buckets. *)
Definition pow_ok (B M : N) : Prop := exists k, M = 2 ^ k /\ B <= M /\ M < 2 * B.

Lemma pow_ok_unique B M M' : pow_ok B M -> pow_ok B M' -> M = M'.
Proof.
  intros (k & -> & H1 & H2) (k' & -> & H3 & H4).
  destruct (N.lt_trichotomy k k') as [L|[->|L]]; auto; exfalso.
  - assert (2 ^ N.succ k <= 2 ^ k') by (apply N.pow_le_mono_r; lia).
    rewrite N.pow_succ_r' in H. lia.
  - assert (2 ^ N.succ k' <= 2 ^ k) by (apply N.pow_le_mono_r; lia).
    rewrite N.pow_succ_r' in H. lia.
Qed.

Lemma ceil_pow2_ok B : 0 < B -> B < 18446744073709551616 -> pow_ok B (ceil_pow2 B).
Proof.
  intros H0 H. exists (N.log2_up B). rewrite ceil_pow2_log2_up by auto. split; auto.
  destruct (N.eq_dec B 1) as [->|Hn]; [change (2 ^ N.log2_up 1) with 1; lia|].
  pose proof (N.log2_up_spec B ltac:(lia)) as [P1 P2].
  pose proof (N.log2_up_pos B ltac:(lia)).
  split; auto. replace (N.log2_up B) with (N.succ (N.pred (N.log2_up B))) by lia.
  rewrite N.pow_succ_r'. lia.
Qed.

Lemma pow_ok_pos B M : pow_ok B M -> 0 < B /\ 0 < M.
Proof. intros (k & -> & H1 & H2). pose proof (N.pow_nonzero 2 k). lia. Qed.

Lemma pow_ok_half B M : pow_ok B M -> M = 1 \/ M = 2 * (M / 2).
Proof.
  intros (k & -> & _). destruct (N.eq_dec k 0) as [->|Hk]; [left; reflexivity|right].
  replace k with (N.succ (N.pred k)) by lia. rewrite N.pow_succ_r'.
  rewrite (N.mul_comm 2), N.div_mul by lia. lia.
Qed.

Lemma bucket_index_lt h B M : pow_ok B M -> bucket_index h B M < B.
Proof.
  intros H. pose proof (pow_ok_pos _ _ H). pose proof (pow_ok_half _ _ H) as Hh.
  destruct H as (k & Hk & H1 & H2). unfold bucket_index.
  pose proof (N.mod_lt h M ltac:(lia)).
  destruct (N.leb_spec B (h mod M)); lia.
Qed.

Lemma pow_ok_grow B M :
  pow_ok B M -> pow_ok (B + 1) (if B =? M then M * 2 else M).
Proof.
  intros (k & -> & H1 & H2). destruct (N.eqb_spec B (2 ^ k)) as [E|E].
  - exists (N.succ k). rewrite N.pow_succ_r'. lia.
  - exists k. lia.
Qed.

(** Growing by one bucket redirects only entries of bucket n1 and only to the
    new bucket. *)
Lemma bucket_index_grow h B M :
  pow_ok B M ->
  let M' := if B =? M then M * 2 else M in
  let n1 := B - M' / 2 in
  n1 < B /\
  ((bucket_index h (B + 1) M' = B /\ bucket_index h B M = n1) \/
   (bucket_index h (B + 1) M' = bucket_index h B M)).
Proof.
  intros H M' n1. pose proof (pow_ok_pos _ _ H) as [HB HM].
  pose proof (pow_ok_half _ _ H) as Hh.
  destruct H as (k & Hk & H1 & H2). subst n1 M'. unfold bucket_index.
  destruct (N.eqb_spec B M) as [E|E].
  - subst B. rewrite N.div_mul by lia. split; [lia|].
    pose proof (N.mod_lt h M ltac:(lia)).
    assert (Hm : h mod (M * 2) = h mod M \/ h mod (M * 2) = h mod M + M).
    { rewrite N.mod_mul_r by lia.
      assert (L : (h / M) mod 2 < 2) by (apply N.mod_lt; lia).
      revert L. generalize ((h / M) mod 2). intros z L.
      assert (z = 0 \/ z = 1) as [->| ->] by (clear - L; lia);
        [left|right]; rewrite ?N.mul_0_r, ?N.mul_1_r, ?N.add_0_r; auto. }
    replace (M <=? h mod M) with false by lia.
    destruct (N.leb_spec (M + 1) (h mod (M * 2))); lia.
  - pose proof (N.mod_lt h M ltac:(lia)). destruct Hh as [->|Hh]; [lia|].
    split; [lia|].
    destruct (N.leb_spec (B + 1) (h mod M)); destruct (N.leb_spec B (h mod M)); lia.
Qed.
