(** Proofs for C85. *)
From Verif Require Import Model.Bytes Model.Err Model.XXHash Model.Field Model.Generator SpecItems Proofs.BytesFacts.

Definition M64 := 18446744073709551616.

Lemma lxor_lt a b : a < M64 -> b < M64 -> N.lxor a b < M64.
Proof.
  unfold M64; intros A B. destruct (N.eq_dec (N.lxor a b) 0) as [->|Z]; [lia|].
  change 18446744073709551616 with (2 ^ 64) in *.
  apply N.log2_lt_pow2; [lia|].
  pose proof (N.log2_lxor a b).
  assert (N.log2 a < 64).
  { destruct (N.eq_dec a 0) as [->|]; [cbn; lia|]. apply N.log2_lt_pow2; lia. }
  assert (N.log2 b < 64).
  { destruct (N.eq_dec b 0) as [->|]; [cbn; lia|]. apply N.log2_lt_pow2; lia. }
  lia.
Qed.

Lemma shiftr_le x k : N.shiftr x k <= x.
Proof. rewrite N.shiftr_div_pow2. apply N.div_le_upper_bound. apply N.pow_nonzero; lia.
  assert (1 <= 2 ^ k) by (pose proof (N.pow_nonzero 2 k); lia). nia. Qed.

Lemma w64_lt x : w64 x < M64.
Proof. unfold w64, M64. apply N.mod_lt. lia. Qed.

Lemma xorshr_lt k x : x < M64 -> xorshr k x < M64.
Proof. intros. apply lxor_lt; auto. pose proof (shiftr_le x k). lia. Qed.

Lemma xorshr_inj k x y : 0 < k -> xorshr k x = xorshr k y -> x = y.
Proof.
  unfold xorshr; intros K E.
  apply N.lxor_eq. set (z := N.lxor x y).
  assert (Z : z = N.shiftr z k).
  { unfold z. rewrite N.shiftr_lxor. apply N.lxor_eq.
    transitivity (N.lxor (N.lxor x (N.shiftr x k)) (N.lxor y (N.shiftr y k))).
    { rewrite !N.lxor_assoc. f_equal. rewrite <- !N.lxor_assoc. f_equal. apply N.lxor_comm. }
    rewrite E. apply N.lxor_nilpotent. }
  rewrite N.shiftr_div_pow2 in Z. destruct (N.eq_dec z 0) as [|NZ]; [assumption|].
  assert (z / 2 ^ k < z). { apply N.div_lt; [lia|]. apply N.pow_gt_1; lia. }
  lia.
Qed.

Lemma mul64_inv a b x : w64 (a * b) = 1 -> x < M64 -> mul64 (mul64 x a) b = x.
Proof.
  unfold mul64, w64, M64; intros E L.
  rewrite N.mul_mod_idemp_l by lia. rewrite <- N.mul_assoc. rewrite <- N.mul_mod_idemp_r by lia.
  rewrite E, N.mul_1_r. apply N.mod_small; assumption.
Qed.

Lemma murmur_inj x y : x < M64 -> y < M64 -> murmurhash3 x = murmurhash3 y -> x = y.
Proof.
  unfold murmurhash3; intros X Y E. cbv zeta in E.
  apply xorshr_inj in E; [|lia].
  apply (f_equal (fun t => mul64 t 11291846944257947611)) in E.
  rewrite !mul64_inv in E; try reflexivity; try (apply xorshr_lt, w64_lt).
  apply xorshr_inj in E; [|lia].
  apply (f_equal (fun t => mul64 t 5725274745694666757)) in E.
  rewrite !mul64_inv in E; try reflexivity; try (apply xorshr_lt; assumption).
  apply xorshr_inj in E; [assumption|lia].
Qed.

Lemma murmur_lt x : murmurhash3 x < M64.
Proof. unfold murmurhash3. apply xorshr_lt, w64_lt. Qed.

Lemma murmur_0 : murmurhash3 0 = 0.
Proof. reflexivity. Qed.

Lemma w64_lxor a b : w64 (N.lxor a b) = N.lxor (w64 a) (w64 b).
Proof.
  unfold w64. change 18446744073709551616 with (2 ^ 64). rewrite <- !N.land_ones.
  apply N.bits_inj; intros i. rewrite ?N.land_spec, ?N.lxor_spec, ?N.land_spec.
  destruct (N.testbit a i), (N.testbit b i), (N.testbit (N.ones 64) i); reflexivity.
Qed.

Lemma shl_inj x y : x < M64 -> y < M64 ->
  N.lxor x (w64 (N.shiftl x 23)) = N.lxor y (w64 (N.shiftl y 23)) -> x = y.
Proof.
  intros X Y E. apply N.lxor_eq. set (z := N.lxor x y).
  assert (L : z < M64) by (apply lxor_lt; assumption).
  assert (Z : z = w64 (N.shiftl z 23)).
  { unfold z. rewrite N.shiftl_lxor, w64_lxor. apply N.lxor_eq.
    transitivity (N.lxor (N.lxor x (w64 (N.shiftl x 23))) (N.lxor y (w64 (N.shiftl y 23)))).
    { rewrite !N.lxor_assoc. f_equal. rewrite <- !N.lxor_assoc. f_equal. apply N.lxor_comm. }
    rewrite E. apply N.lxor_nilpotent. }
  clearbody z. clear -Z. rewrite N.shiftl_mul_pow2 in Z. unfold w64 in Z.
  assert (Z2 : z = (z * 2 ^ 46) mod 18446744073709551616).
  { rewrite Z at 1. rewrite Z at 1. rewrite N.mul_mod_idemp_l by lia. f_equal. rewrite <- N.mul_assoc. reflexivity. }
  rewrite Z2. rewrite Z at 1. rewrite N.mul_mod_idemp_l by lia. rewrite <- N.mul_assoc.
  change (2 ^ 23 * 2 ^ 46) with (32 * 18446744073709551616). rewrite N.mul_assoc. apply N.mod_mul. lia.
Qed.

Definition eok (g : engine) := fst g < M64 /\ snd g < M64.

Lemma draw_ok g : eok g -> eok (fst (engine_draw g)).
Proof.
  destruct g as [a b]; unfold eok, engine_draw; cbn [fst snd]; intros [A B]. split; [assumption|].
  assert (N.lxor a (w64 (N.shiftl a 23)) < M64) by (apply lxor_lt; [assumption|apply w64_lt]).
  set (s := N.lxor a (w64 (N.shiftl a 23))) in *.
  clearbody s. pose proof (shiftr_le s 17). pose proof (shiftr_le b 26).
  repeat apply lxor_lt; lia.
Qed.

Lemma draw_inj g h : eok g -> eok h -> fst (engine_draw g) = fst (engine_draw h) -> g = h.
Proof.
  destruct g as [a b], h as [c d]; unfold eok, engine_draw; cbn [fst snd]; intros [A B] [C D] E.
  assert (E1 : b = d) by congruence.
  apply (f_equal snd) in E; cbn [snd] in E. subst d.
  set (s := N.lxor a (w64 (N.shiftl a 23))) in *. set (t := N.lxor c (w64 (N.shiftl c 23))) in *.
  assert (K : xorshr 17 s = xorshr 17 t).
  { unfold xorshr. apply (f_equal (fun v => N.lxor v (N.lxor b (N.shiftr b 26)))) in E.
    assert (R : forall u, N.lxor (N.lxor (N.lxor (N.lxor u b) (N.shiftr u 17)) (N.shiftr b 26)) (N.lxor b (N.shiftr b 26))
                = N.lxor u (N.shiftr u 17)).
    { intros u. apply N.bits_inj; intros i. rewrite !N.lxor_spec.
      destruct (N.testbit u i), (N.testbit b i), (N.testbit (N.shiftr u 17) i), (N.testbit (N.shiftr b 26) i); reflexivity. }
    cbv beta in E. rewrite !R in E. exact E. }
  apply xorshr_inj in K; [|lia]. apply shl_inj in K; [|assumption|assumption]. congruence.
Qed.

Lemma after_ok n : forall g, eok g -> eok (after n g).
Proof. induction n; intros; cbn [after]; auto. apply IHn, draw_ok; assumption. Qed.

Lemma after_inj n : forall g h, eok g -> eok h -> after n g = after n h -> g = h.
Proof.
  induction n; intros g h G H E; cbn [after] in E; auto.
  apply draw_inj; auto. apply IHn; auto using draw_ok.
Qed.

Lemma after_0 n : after n (0, 0) = (0, 0).
Proof. induction n; cbn [after]; auto. Qed.

Lemma seed_ok i g : engine_seed i = Ok g -> eok g.
Proof.
  unfold engine_seed. destruct (i =? 0); intros E; [discriminate|].
  assert (g = (murmurhash3 i, murmurhash3 (murmurhash3 i))) by congruence. subst g.
  split; apply murmur_lt.
Qed.

Theorem never_zero seed g n : 0 < seed < 2 ^ 64 -> engine_seed seed = Ok g -> after n g <> (0, 0).
Proof.
  intros B E K. pose proof (seed_ok _ _ E) as O.
  assert (Z : g = (0, 0)). { apply (after_inj n); auto. split; reflexivity. rewrite after_0; exact K. }
  unfold engine_seed in E. destruct (seed =? 0) eqn:Q; [discriminate|].
  assert (g = (murmurhash3 seed, murmurhash3 (murmurhash3 seed))) by congruence.
  assert (murmurhash3 seed = murmurhash3 0) by (rewrite murmur_0; congruence).
  apply murmur_inj in H0; [lia| unfold M64; lia | reflexivity].
Qed.

Theorem distinct s1 s2 g1 g2 n : s1 < 2 ^ 64 -> s2 < 2 ^ 64 -> s1 <> s2 ->
  engine_seed s1 = Ok g1 -> engine_seed s2 = Ok g2 -> after n g1 <> after n g2.
Proof.
  intros B1 B2 D E1 E2 K.
  apply after_inj in K; eauto using seed_ok.
  unfold engine_seed in *. destruct (s1 =? 0), (s2 =? 0); try discriminate.
  assert (murmurhash3 s1 = murmurhash3 s2) by congruence.
  apply murmur_inj in H; auto.
Qed.

Lemma blen_repr le v : blen (repr64 le v) = 8.
Proof. destruct le; reflexivity. Qed.

Lemma fill_loop fuel : forall le dest size g mem, (N.to_nat size < fuel)%nat -> dest + size <= blen mem ->
  rngfill_loop fuel le dest size g mem =
    Ok (btake dest mem ++ random_bytes le g size ++ bdrop (dest + size) mem, after (numbers_for size) g).
Proof.
  induction fuel as [|fuel IH]; intros le dest size g mem F B; [lia|]. cbn [rngfill_loop].
  destruct (8 <=? size) eqn:Q.
  - destruct (engine_draw g) as [g' v] eqn:D. unfold copy_to.
    rewrite blen_repr. replace (dest + 8 <=? blen mem) with true by lia.
    rewrite IH; [|lia|].
    2:{ rewrite blen_bwrite; rewrite ?blen_repr; lia. }
    assert (NF : numbers_for size = S (numbers_for (size - 8))).
    { unfold numbers_for. replace (size + 7) with (size - 8 + 7 + 1 * 8) by lia. rewrite N.div_add by lia. lia. }
    unfold random_bytes. rewrite NF. cbn [drawn after flat_map]. rewrite D; cbn [fst snd].
    do 2 f_equal. rewrite bwrite_in by (rewrite blen_repr; lia). rewrite blen_repr.
    assert (T : blen (btake dest mem) = dest) by (rewrite blen_btake; lia).
    rewrite (app_assoc (btake dest mem)).
    rewrite (btake_app_eq (dest + 8)) by (rewrite blen_app, blen_repr, T; reflexivity).
    rewrite (bdrop_app_r (dest + 8 + (size - 8))) by (rewrite blen_app, blen_repr, T; lia).
    rewrite blen_app, blen_repr, T. rewrite bdrop_bdrop.
    rewrite (btake_app_r size) by (rewrite blen_repr; lia). rewrite blen_repr.
    rewrite <- !app_assoc. do 4 f_equal. lia.
  - destruct (0 <? size) eqn:Q0.
    + destruct (engine_draw g) as [g' v] eqn:D. unfold copy_to.
      assert (T : blen (btake size (repr64 le v)) = size) by (rewrite blen_btake, blen_repr; lia).
      rewrite T. replace (dest + size <=? blen mem) with true by lia.
      rewrite bwrite_in by (rewrite T; lia). rewrite T.
      assert (NF : numbers_for size = 1%nat).
      { unfold numbers_for. replace ((size + 7) / 8) with 1; [reflexivity|].
        apply (N.div_unique _ _ _ (size - 1)); lia. }
      unfold random_bytes. rewrite NF. cbn [drawn after flat_map]. rewrite D; cbn [fst snd]. rewrite app_nil_r. reflexivity.
    + assert (size = 0) by lia. subst size. unfold random_bytes. change (numbers_for 0) with 0%nat.
      cbn [drawn after flat_map]. rewrite btake_nil, N.add_0_r. cbn [app]. rewrite btake_bdrop. reflexivity.
Qed.

Theorem fill le dest size g mem : dest + size <= blen mem ->
  rngfill le dest size g mem =
    Ok (btake dest mem ++ random_bytes le g size ++ bdrop (dest + size) mem, after (numbers_for size) g).
Proof. intros; apply fill_loop; lia. Qed.

Lemma blen_flat le l : blen (flat_map (repr64 le) l) = 8 * blen l.
Proof. induction l; cbn [flat_map]; [reflexivity|]. rewrite blen_app, blen_repr, blen_cons, IHl. lia. Qed.

Lemma blen_drawn n : forall g, blen (drawn n g) = N.of_nat n.
Proof. induction n; intros; cbn [drawn]; [reflexivity|]. rewrite blen_cons, IHn. lia. Qed.

Lemma blen_random le g size : blen (random_bytes le g size) = size.
Proof.
  unfold random_bytes. rewrite blen_btake, blen_flat, blen_drawn. unfold numbers_for.
  rewrite N2Nat.id. pose proof (N.div_mod (size + 7) 8). pose proof (N.mod_lt (size + 7) 8). lia.
Qed.

Theorem item le sizef old keySize i : (forall n, blen (old n) = n) -> i < 2 ^ 64 - 1 ->
  exists g, engine_seed (i + 1) = Ok g /\
    let R := random_bytes le (snd (sizef g)) (keySize + fst (sizef g)) in
    test_item le sizef old keySize i = Ok (btake (fst (sizef g)) R, bdrop (fst (sizef g)) R).
Proof.
  intros O B. unfold test_item. replace (w64 (i + 1)) with (i + 1).
  2:{ unfold w64. symmetry; apply N.mod_small. lia. }
  unfold engine_seed. replace (i + 1 =? 0) with false by lia. cbv zeta.
  eexists; split; [reflexivity|]. set (g := (_, _)). destruct (sizef g) as [size h]. cbn [fst snd].
  rewrite fill by (rewrite O; lia).
  rewrite btake_0, N.add_0_l. cbn [app].
  rewrite (bdrop_all _ (old _)) by (rewrite O; lia). rewrite app_nil_r.
  f_equal. f_equal. unfold bsub. apply btake_all. rewrite blen_bdrop, blen_random. lia.
Qed.

Theorem item_last le sizef old keySize : test_item le sizef old keySize (2 ^ 64 - 1) = Er EThrow.
Proof. reflexivity. Qed.
