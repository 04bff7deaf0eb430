(** Facts about integer fields. *)
From Verif Require Import Model.Bytes Model.Field Proofs.BytesFacts.

Lemma byte_of_spec t k : byte_of t k = (t / 2 ^ k) mod 256.
Proof.
  unfold byte_of. rewrite N.shiftr_div_pow2.
  change 255 with (N.ones 8). rewrite N.land_ones. reflexivity.
Qed.

Lemma byte_of_lt t k : byte_of t k < 256.
Proof. rewrite byte_of_spec. apply N.mod_lt; lia. Qed.

Lemma lor_low_high l a k : l < 2 ^ k -> N.lor l (a * 2 ^ k) = a * 2 ^ k + l.
Proof.
  intros H.
  assert (E : N.land l (a * 2 ^ k) = 0).
  { apply N.bits_inj_iff; intro i. rewrite N.land_spec, N.bits_0.
    destruct (N.ltb_spec i k) as [Hi|Hi].
    - rewrite N.mul_pow2_bits_low by auto. apply andb_false_r.
    - destruct (N.eq_dec l 0) as [->|Hl]; [rewrite N.bits_0; auto|].
      rewrite N.bits_above_log2; auto.
      apply N.log2_lt_pow2 in H; lia. }
  rewrite <- N.lxor_lor by auto. rewrite <- N.add_nocarry_lxor by auto. lia.
Qed.

Lemma rd16_list b0 b1 : b0 < 256 -> b1 < 256 -> rd16 [b0; b1] = b0 * 256 + b1.
Proof.
  intros. unfold rd16, byte_at; simpl nth. rewrite !N.shiftl_mul_pow2.
  rewrite (lor_low_high b1 b0 8) by (change (2 ^ 8) with 256; lia). reflexivity.
Qed.

Lemma rd24_list b0 b1 b2 : b0 < 256 -> b1 < 256 -> b2 < 256 ->
  rd24 [b0; b1; b2] = b0 * 65536 + b1 * 256 + b2.
Proof.
  intros. unfold rd24, byte_at; simpl nth. rewrite !N.shiftl_mul_pow2.
  rewrite (lor_low_high (b1 * 2 ^ 8) b0 16) by (change (2^8) with 256; change (2^16) with 65536; lia).
  replace (b0 * 2 ^ 16 + b1 * 2 ^ 8) with ((b0 * 256 + b1) * 2 ^ 8)
    by (change (2^8) with 256; change (2^16) with 65536; lia).
  rewrite lor_low_high by (change (2^8) with 256; lia).
  change (2^8) with 256; lia.
Qed.

Lemma rd32_list b0 b1 b2 b3 : b0 < 256 -> b1 < 256 -> b2 < 256 -> b3 < 256 ->
  rd32 [b0; b1; b2; b3] = b0 * 16777216 + b1 * 65536 + b2 * 256 + b3.
Proof.
  intros. unfold rd32, byte_at; simpl nth. rewrite !N.shiftl_mul_pow2.
  rewrite (lor_low_high (b1 * 2 ^ 16) b0 24)
    by (change (2^16) with 65536; change (2^24) with 16777216; lia).
  replace (b0 * 2 ^ 24 + b1 * 2 ^ 16) with ((b0 * 256 + b1) * 2 ^ 16)
    by (change (2^24) with 16777216; change (2^16) with 65536; lia).
  rewrite lor_low_high by (change (2^8) with 256; change (2^16) with 65536; lia).
  replace ((b0 * 256 + b1) * 2 ^ 16 + b2 * 2 ^ 8) with ((b0 * 65536 + b1 * 256 + b2) * 2 ^ 8)
    by (change (2^8) with 256; change (2^16) with 65536; lia).
  rewrite lor_low_high by (change (2^8) with 256; lia).
  change (2^8) with 256; lia.
Qed.

Ltac pows :=
  change (2^8) with 256 in *; change (2^16) with 65536 in *;
  change (2^24) with 16777216 in *; change (2^32) with 4294967296 in *;
  change (2^40) with 1099511627776 in *; change (2^48) with 281474976710656 in *;
  change (2^56) with 72057594037927936 in *; change (2^64) with 18446744073709551616 in *.

Lemma rd48_list b0 b1 b2 b3 b4 b5 :
  b0 < 256 -> b1 < 256 -> b2 < 256 -> b3 < 256 -> b4 < 256 -> b5 < 256 ->
  rd48 [b0; b1; b2; b3; b4; b5] =
  b0 * 1099511627776 + b1 * 4294967296 + b2 * 16777216 + b3 * 65536 + b4 * 256 + b5.
Proof.
  intros. unfold rd48, byte_at; simpl nth. rewrite !N.shiftl_mul_pow2.
  rewrite (lor_low_high (b1 * 2 ^ 32) b0 40) by (pows; lia).
  replace (b0 * 2 ^ 40 + b1 * 2 ^ 32) with ((b0 * 256 + b1) * 2 ^ 32) by (pows; lia).
  rewrite lor_low_high by (pows; lia).
  replace ((b0 * 256 + b1) * 2 ^ 32 + b2 * 2 ^ 24)
    with ((b0 * 65536 + b1 * 256 + b2) * 2 ^ 24) by (pows; lia).
  rewrite lor_low_high by (pows; lia).
  replace ((b0 * 65536 + b1 * 256 + b2) * 2 ^ 24 + b3 * 2 ^ 16)
    with ((b0 * 16777216 + b1 * 65536 + b2 * 256 + b3) * 2 ^ 16) by (pows; lia).
  rewrite lor_low_high by (pows; lia).
  replace ((b0 * 16777216 + b1 * 65536 + b2 * 256 + b3) * 2 ^ 16 + b4 * 2 ^ 8)
    with ((b0 * 4294967296 + b1 * 16777216 + b2 * 65536 + b3 * 256 + b4) * 2 ^ 8)
    by (pows; lia).
  rewrite lor_low_high by (pows; lia).
  pows; lia.
Qed.

Lemma rd64_list b0 b1 b2 b3 b4 b5 b6 b7 :
  b0 < 256 -> b1 < 256 -> b2 < 256 -> b3 < 256 ->
  b4 < 256 -> b5 < 256 -> b6 < 256 -> b7 < 256 ->
  rd64 [b0; b1; b2; b3; b4; b5; b6; b7] =
  b0 * 72057594037927936 + b1 * 281474976710656 +
  b2 * 1099511627776 + b3 * 4294967296 + b4 * 16777216 + b5 * 65536 + b6 * 256 + b7.
Proof.
  intros. unfold rd64, byte_at; simpl nth. rewrite !N.shiftl_mul_pow2.
  rewrite (lor_low_high (b1 * 2 ^ 48) b0 56) by (pows; lia).
  replace (b0 * 2 ^ 56 + b1 * 2 ^ 48) with ((b0 * 256 + b1) * 2 ^ 48) by (pows; lia).
  rewrite lor_low_high by (pows; lia).
  replace ((b0 * 256 + b1) * 2 ^ 48 + b2 * 2 ^ 40)
    with ((b0 * 65536 + b1 * 256 + b2) * 2 ^ 40) by (pows; lia).
  rewrite lor_low_high by (pows; lia).
  replace ((b0 * 65536 + b1 * 256 + b2) * 2 ^ 40 + b3 * 2 ^ 32)
    with ((b0 * 16777216 + b1 * 65536 + b2 * 256 + b3) * 2 ^ 32) by (pows; lia).
  rewrite lor_low_high by (pows; lia).
  replace ((b0 * 16777216 + b1 * 65536 + b2 * 256 + b3) * 2 ^ 32 + b4 * 2 ^ 24)
    with ((b0 * 4294967296 + b1 * 16777216 + b2 * 65536 + b3 * 256 + b4) * 2 ^ 24)
    by (pows; lia).
  rewrite lor_low_high by (pows; lia).
  replace ((b0 * 4294967296 + b1 * 16777216 + b2 * 65536 + b3 * 256 + b4) * 2 ^ 24 + b5 * 2 ^ 16)
    with ((b0 * 1099511627776 + b1 * 4294967296 + b2 * 16777216 + b3 * 65536 + b4 * 256 + b5) * 2 ^ 16)
    by (pows; lia).
  rewrite lor_low_high by (pows; lia).
  replace ((b0 * 1099511627776 + b1 * 4294967296 + b2 * 16777216 + b3 * 65536 + b4 * 256 + b5) * 2 ^ 16 + b6 * 2 ^ 8)
    with ((b0 * 281474976710656 + b1 * 1099511627776 + b2 * 4294967296 + b3 * 16777216 + b4 * 65536 + b5 * 256 + b6) * 2 ^ 8)
    by (pows; lia).
  rewrite lor_low_high by (pows; lia).
  pows; lia.
Qed.

(** Peeling one base-256 digit at a time. *)
Lemma digit_step n k : (n / 2 ^ (k + 8)) * 256 + (n / 2 ^ k) mod 256 = n / 2 ^ k.
Proof.
  replace (n / 2 ^ (k + 8)) with ((n / 2 ^ k) / 256).
  2: { rewrite N.pow_add_r. rewrite N.div_div by (try apply N.pow_nonzero; lia). reflexivity. }
  pose proof (N.div_mod (n / 2 ^ k) 256). lia.
Qed.

Lemma rd_wr16 n : n < 65536 -> rd16 (wr16 n) = n.
Proof.
  intros. unfold wr16. rewrite rd16_list by apply byte_of_lt. rewrite !byte_of_spec.
  rewrite N.mod_small with (a := n / 2 ^ 8) by (apply N.div_lt_upper_bound; pows; lia).
  pose proof (digit_step n 0). change (0 + 8) with 8 in H0. change (2 ^ 0) with 1 in *.
  rewrite N.div_1_r in *. lia.
Qed.

Lemma rd_wr24 n : n < 16777216 -> rd24 (wr24 n) = n.
Proof.
  intros. unfold wr24. rewrite rd24_list by apply byte_of_lt. rewrite !byte_of_spec.
  rewrite N.mod_small with (a := n / 2 ^ 16) by (apply N.div_lt_upper_bound; pows; lia).
  pose proof (digit_step n 0). pose proof (digit_step n 8).
  change (0 + 8) with 8 in *. change (8 + 8) with 16 in *. change (2 ^ 0) with 1 in *.
  rewrite N.div_1_r in *. lia.
Qed.

Lemma rd_wr32 n : n < 4294967296 -> rd32 (wr32 n) = n.
Proof.
  intros. unfold wr32. rewrite rd32_list by apply byte_of_lt. rewrite !byte_of_spec.
  rewrite N.mod_small with (a := n / 2 ^ 24) by (apply N.div_lt_upper_bound; pows; lia).
  pose proof (digit_step n 0). pose proof (digit_step n 8). pose proof (digit_step n 16).
  change (0 + 8) with 8 in *. change (8 + 8) with 16 in *. change (16 + 8) with 24 in *.
  change (2 ^ 0) with 1 in *. rewrite N.div_1_r in *. lia.
Qed.

Lemma rd_wr48 n : n < 281474976710656 -> rd48 (wr48 n) = n.
Proof.
  intros. unfold wr48. rewrite rd48_list by apply byte_of_lt. rewrite !byte_of_spec.
  rewrite N.mod_small with (a := n / 2 ^ 40) by (apply N.div_lt_upper_bound; pows; lia).
  pose proof (digit_step n 0). pose proof (digit_step n 8). pose proof (digit_step n 16).
  pose proof (digit_step n 24). pose proof (digit_step n 32).
  change (0 + 8) with 8 in *. change (8 + 8) with 16 in *. change (16 + 8) with 24 in *.
  change (24 + 8) with 32 in *. change (32 + 8) with 40 in *.
  change (2 ^ 0) with 1 in *. rewrite N.div_1_r in *. lia.
Qed.

Lemma rd_wr64 n : n < 18446744073709551616 -> rd64 (wr64 n) = n.
Proof.
  intros. unfold wr64. rewrite rd64_list by apply byte_of_lt. rewrite !byte_of_spec.
  rewrite N.mod_small with (a := n / 2 ^ 56) by (apply N.div_lt_upper_bound; pows; lia).
  pose proof (digit_step n 0). pose proof (digit_step n 8). pose proof (digit_step n 16).
  pose proof (digit_step n 24). pose proof (digit_step n 32). pose proof (digit_step n 40).
  pose proof (digit_step n 48).
  change (0 + 8) with 8 in *. change (8 + 8) with 16 in *. change (16 + 8) with 24 in *.
  change (24 + 8) with 32 in *. change (32 + 8) with 40 in *. change (40 + 8) with 48 in *.
  change (48 + 8) with 56 in *.
  change (2 ^ 0) with 1 in *. rewrite N.div_1_r in *. lia.
Qed.

Lemma rd_size48_wr48 n : n < 4294967296 -> rd_size48 (wr48 n) = n.
Proof.
  intros. unfold rd_size48. rewrite rd_wr48 by lia.
  change 4294967295 with (N.ones 32). rewrite N.land_ones. apply N.mod_small. pows; lia.
Qed.

Lemma blen_wr16 n : blen (wr16 n) = 2. Proof. reflexivity. Qed.
Lemma blen_wr32 n : blen (wr32 n) = 4. Proof. reflexivity. Qed.
Lemma blen_wr48 n : blen (wr48 n) = 6. Proof. reflexivity. Qed.
Lemma blen_wr64 n : blen (wr64 n) = 8. Proof. reflexivity. Qed.
Lemma blen_le64 n : blen (le64 n) = 8. Proof. reflexivity. Qed.

Ltac bytesok := repeat constructor; apply byte_of_lt.
Lemma bytes_ok_wr16 n : bytes_ok (wr16 n). Proof. bytesok. Qed.
Lemma bytes_ok_wr48 n : bytes_ok (wr48 n). Proof. bytesok. Qed.
Lemma bytes_ok_wr64 n : bytes_ok (wr64 n). Proof. bytesok. Qed.
Lemma bytes_ok_le64 n : bytes_ok (le64 n). Proof. bytesok. Qed.

(** Reading always yields a value of the field's width. *)
Lemma rd16_lt l : bytes_ok l -> blen l = 2 -> rd16 l < 65536.
Proof.
  intros H E. destruct l as [|a [|b [|c l]]]; unfold blen in E; simpl in E; try lia.
  inversion H as [|? ? H1 H2]; subst. inversion H2; subst.
  rewrite rd16_list by auto. lia.
Qed.
Lemma rd48_lt l : bytes_ok l -> blen l = 6 -> rd48 l < 281474976710656.
Proof.
  intros H E.
  destruct l as [|a [|b [|c [|d [|x [|y [|z l]]]]]]]; unfold blen in E; simpl in E; try lia.
  repeat match goal with h : bytes_ok (_ :: _) |- _ => inversion h; clear h; subst
    | h : Forall _ (_ :: _) |- _ => inversion h; clear h; subst end.
  rewrite rd48_list by auto. lia.
Qed.

