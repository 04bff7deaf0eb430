(** xxhash. *)
From Verif Require Import Model.Bytes Model.Err Model.XXHash Proofs.BytesFacts SpecXXH.

Lemma W_eq : W = 18446744073709551616. Proof. reflexivity. Qed.

Lemma lt_bits a : (forall i, 64 <= i -> N.testbit a i = false) -> a < W.
Proof.
  intros Hb. assert (E : a = a mod 2 ^ 64).
  { apply N.bits_inj. intros i. destruct (N.lt_ge_cases i 64) as [L|L].
    - rewrite N.mod_pow2_bits_low; auto.
    - rewrite N.mod_pow2_bits_high; auto. }
  rewrite E. apply N.mod_lt. discriminate.
Qed.

Lemma bits_lt a i : a < W -> 64 <= i -> N.testbit a i = false.
Proof.
  intros Ha Hi. rewrite <- (N.mod_small a W) by auto. apply N.mod_pow2_bits_high. exact Hi.
Qed.

Lemma lxor_lt a b : a < W -> b < W -> N.lxor a b < W.
Proof.
  intros Ha Hb. apply lt_bits. intros i Hi. rewrite N.lxor_spec, !bits_lt by auto. reflexivity.
Qed.

Lemma w64_lt x : w64 x < W.
Proof. apply N.mod_lt. discriminate. Qed.

Lemma rotl_rol x r : x < W -> r <= 64 -> rotl64 x r = rol x r.
Proof.
  intros Hx Hr. unfold rotl64, rol, w64. rewrite N.shiftl_mul_pow2, N.shiftr_div_pow2.
  change 18446744073709551616 with W.
  assert (L : N.land ((x * 2 ^ r) mod W) (x / 2 ^ (64 - r)) = 0).
  { apply N.bits_inj_0. intros i. rewrite N.land_spec.
    destruct (N.lt_ge_cases i r) as [Hi|Hi].
    - unfold W. rewrite N.mod_pow2_bits_low by lia. rewrite N.mul_pow2_bits_low by auto. reflexivity.
    - rewrite N.div_pow2_bits, (bits_lt x) by (auto; lia). apply andb_false_r. }
  rewrite N.add_nocarry_lxor by auto. symmetry. apply N.lxor_lor. exact L.
Qed.

Lemma rol_lt x r : x < W -> r <= 64 -> rol x r < W.
Proof.
  intros Hx Hr. rewrite <- rotl_rol by auto. unfold rotl64. apply lt_bits. intros i Hi.
  rewrite N.lor_spec. rewrite (bits_lt (w64 _)) by (auto using w64_lt).
  rewrite N.shiftr_spec by lia. rewrite bits_lt by (auto; lia). reflexivity.
Qed.

Lemma mod_W x : x mod W < W. Proof. apply N.mod_lt. discriminate. Qed.

Lemma add64_eq a b : add64 a b = (a + b) mod W. Proof. reflexivity. Qed.
Lemma mul64_eq a b : mul64 a b = (a * b) mod W. Proof. reflexivity. Qed.

Lemma add_mod_l a b : ((a mod W) + b) mod W = (a + b) mod W.
Proof. apply N.add_mod_idemp_l. discriminate. Qed.
Lemma add_mod_r a b : (a + (b mod W)) mod W = (a + b) mod W.
Proof. apply N.add_mod_idemp_r. discriminate. Qed.

Lemma add64_4 a b c e : add64 (add64 (add64 a b) c) e = (a + b + c + e) mod W.
Proof.
  assert (A : forall x y z, add64 (add64 x y) z = (x + y + z) mod W)
    by (intros; rewrite !add64_eq; apply add_mod_l).
  rewrite A. change (add64 a b) with ((a + b) mod W).
  rewrite <- N.add_assoc, add_mod_l, N.add_assoc. reflexivity.
Qed.

Lemma round_eq acc x : xx_round acc x = xround acc x.
Proof.
  unfold xx_round, xround. rewrite !add64_eq, !mul64_eq, add_mod_r.
  rewrite rotl_rol; [reflexivity|apply mod_W|lia].
Qed.
Lemma xround_lt acc x : xround acc x < W. Proof. apply mod_W. Qed.

Lemma merge_eq acc x : xx_merge acc x = xmerge acc x.
Proof. unfold xx_merge, xmerge. rewrite round_eq, add64_eq, mul64_eq, add_mod_l. reflexivity. Qed.

(** Reading little endian integers. *)
Definition le_num (l : bytes) : N := fold_right (fun b a => b + 256 * a) 0 l.

Lemma mem_le l : mem_uint true l = le_num l.
Proof. induction l as [|b l IH]; cbn [mem_uint le_num fold_right]; auto. rewrite IH. auto. Qed.

Lemma mem_be_snoc l b : mem_uint false (l ++ [b]) = 256 * mem_uint false l + b.
Proof.
  induction l as [|c l IH]; cbn [mem_uint app].
  - change (blen (@nil N)) with 0. rewrite N.pow_0_r. lia.
  - rewrite IH, blen_app. change (blen [b]) with 1. rewrite N.add_1_r, N.pow_succ_r'. lia.
Qed.

Lemma le_num_snoc l b : le_num (l ++ [b]) = le_num l + 256 ^ blen l * b.
Proof.
  induction l as [|c l IH]; cbn [le_num fold_right app].
  - change (blen (@nil N)) with 0. rewrite N.pow_0_r. lia.
  - unfold le_num in IH. rewrite IH, blen_cons. rewrite N.add_1_r, N.pow_succ_r'. lia.
Qed.

Lemma swap_be k : forall l, length l = k -> bytes_ok l -> bswap k (mem_uint false l) = le_num l.
Proof.
  induction k as [|k IH]; intros l Hl Hb.
  - destruct l; [reflexivity|discriminate].
  - destruct l as [|a l _] using rev_ind; [discriminate|].
    rewrite app_length in Hl. simpl in Hl. apply Forall_app in Hb as [Hb1 Hb2]. inversion Hb2; subst.
    rewrite mem_be_snoc, le_num_snoc. cbn [bswap].
    replace ((256 * mem_uint false l + a) mod 256) with a.
    2:{ rewrite N.add_comm, N.mul_comm, N.mod_add by lia. symmetry. apply N.mod_small. auto. }
    replace ((256 * mem_uint false l + a) / 256) with (mem_uint false l).
    2:{ rewrite N.add_comm, N.mul_comm, N.div_add by lia. rewrite N.div_small by auto. lia. }
    rewrite IH by (auto; lia). unfold blen. replace (length l) with k by lia. lia.
Qed.

Lemma read_le_ok k le al addr d p : bytes_ok d -> p + N.of_nat k <= blen d ->
  (al = false \/ (addr + p) mod N.of_nat k = 0) ->
  read_le k le al addr d p = Ok (le_at d (N.to_nat p) k).
Proof.
  intros Hb Hp Ha. unfold read_le.
  replace (al && negb ((addr + p) mod N.of_nat k =? 0)) with false.
  2:{ destruct Ha as [->|Ha]; auto. rewrite Ha. destruct al; reflexivity. }
  assert (L : length (bsub p (N.of_nat k) d) = k).
  { assert (X : blen (bsub p (N.of_nat k) d) = N.of_nat k) by (apply blen_bsub; auto).
    unfold blen in X. lia. }
  assert (E : le_num (bsub p (N.of_nat k) d) = le_at d (N.to_nat p) k).
  { unfold le_at, le_num, bsub, btake, bdrop. rewrite Nat2N.id. auto. }
  destruct le.
  - rewrite mem_le, E. auto.
  - rewrite swap_be, E; auto. apply bytes_ok_bsub. auto.
Qed.

Section Input.
Variables (le : bool) (addr : N) (d : bytes).
Hypothesis Hd : bytes_ok d.
Local Open Scope nat_scope.

Lemma get_ok al k p : (N.of_nat (p + k) <= blen d)%N ->
  (al = false \/ (addr + N.of_nat p) mod N.of_nat k = 0)%N ->
  read_le k le al addr d (N.of_nat p) = Ok (le_at d p k).
Proof using Hd.
  intros Hp Ha. rewrite read_le_ok; auto; [|lia]. rewrite Nat2N.id. auto.
Qed.

Definition lanes (j i m : nat) (v : N) : N :=
  fold_left (fun acc i => xround acc (le_at d (32 * i + 8 * j) 8)) (seq i m) v.

Lemma stripes_ok m : forall fuel i v1 v2 v3 v4,
  i + S m = length d / 32 -> m < fuel ->
  xx_stripes le false addr d fuel (blen d - 32) (N.of_nat (32 * i)) v1 v2 v3 v4 =
    Ok (N.of_nat (32 * (length d / 32)), lanes 0 i (S m) v1, lanes 1 i (S m) v2,
        lanes 2 i (S m) v3, lanes 3 i (S m) v4).
Proof using Hd.
  pose proof (Nat.div_mod (length d) 32 ltac:(lia)) as Hdm.
  pose proof (Nat.mod_upper_bound (length d) 32 ltac:(lia)) as Hub.
  set (n := length d / 32) in *. clearbody n.
  induction m as [|m IH]; intros fuel i v1 v2 v3 v4 Hi Hf; (destruct fuel as [|fuel]; [lia|]);
    cbn [xx_stripes].
  all: replace (N.of_nat (32 * i)) with (N.of_nat (32 * i + 8 * 0)) by lia.
  all: rewrite get_ok by (auto; unfold blen; lia); cbn [rbind]; cbv zeta.
  all: replace (N.of_nat (32 * i + 8 * 0) + 8)%N with (N.of_nat (32 * i + 8 * 1)) by lia.
  all: rewrite get_ok by (auto; unfold blen; lia); cbn [rbind].
  all: replace (N.of_nat (32 * i + 8 * 1) + 8)%N with (N.of_nat (32 * i + 8 * 2)) by lia.
  all: rewrite get_ok by (auto; unfold blen; lia); cbn [rbind].
  all: replace (N.of_nat (32 * i + 8 * 2) + 8)%N with (N.of_nat (32 * i + 8 * 3)) by lia.
  all: rewrite get_ok by (auto; unfold blen; lia); cbn [rbind].
  all: replace (N.of_nat (32 * i + 8 * 3) + 8)%N with (N.of_nat (32 * (i + 1))) by lia.
  all: rewrite !round_eq.
  - replace (N.of_nat (32 * (i + 1)) <=? blen d - 32)%N with false by (unfold blen; lia).
    unfold lanes. cbn [seq fold_left]. replace (i + 1) with n by lia. reflexivity.
  - replace (N.of_nat (32 * (i + 1)) <=? blen d - 32)%N with true by (unfold blen; lia).
    rewrite IH by lia. unfold lanes.
    replace (seq i (S (S m))) with (i :: seq (i + 1) (S m)) by (cbn [seq]; rewrite Nat.add_1_r; reflexivity).
    reflexivity.
Qed.

Definition words (o i m : nat) (v : N) : N :=
  fold_left (fun acc i => eat8 acc (le_at d (o + 8 * i) 8)) (seq i m) v.

Lemma eat8_eq h x : (h < W)%N ->
  add64 (mul64 (rotl64 (N.lxor h (xx_round 0 x)) 27) prime64_1) prime64_4 = eat8 h x.
Proof.
  intros Hh. unfold eat8. rewrite round_eq, add64_eq, mul64_eq, add_mod_l.
  rewrite rotl_rol; [reflexivity| |lia]. apply lxor_lt; auto using xround_lt.
Qed.

Lemma words_ok o al m : forall fuel i h,
  i + m = (length d - o) / 8 -> o <= length d -> m < fuel -> (h < W)%N ->
  (al = false \/ m = 0 \/ ((addr + N.of_nat o) mod 8 = 0)%N) ->
  xx_words le al addr d fuel (N.of_nat (o + 8 * i)) h =
    Ok (N.of_nat (o + 8 * ((length d - o) / 8)), words o i m h) /\ (words o i m h < W)%N.
Proof using Hd.
  intros fuel i h Hi Ho. revert fuel i h Hi.
  pose proof (Nat.div_mod (length d - o) 8 ltac:(lia)) as Hdm.
  pose proof (Nat.mod_upper_bound (length d - o) 8 ltac:(lia)) as Hub.
  set (n := (length d - o) / 8) in *. clearbody n.
  induction m as [|m IH]; intros fuel i h Hi Hf Hh Ha; (destruct fuel as [|fuel]; [lia|]); cbn [xx_words].
  - replace (N.of_nat (o + 8 * i) + 8 <=? blen d)%N with false by (unfold blen; lia).
    unfold words. cbn [seq fold_left]. replace n with i by lia. auto.
  - replace (N.of_nat (o + 8 * i) + 8 <=? blen d)%N with true by (unfold blen; lia).
    rewrite get_ok.
    + cbn [rbind]; cbv zeta. rewrite eat8_eq by auto.
      replace (N.of_nat (o + 8 * i) + 8)%N with (N.of_nat (o + 8 * (i + 1))) by lia.
      destruct (IH fuel (i + 1) (eat8 h (le_at d (o + 8 * i) 8))) as [E1 E2]; try lia.
      * apply mod_W.
      * unfold words in *.
        replace (seq i (S m)) with (i :: seq (i + 1) m) by (cbn [seq]; rewrite Nat.add_1_r; reflexivity).
        cbn [fold_left]. auto.
    + unfold blen; lia.
    + destruct Ha as [Ha|[Ha|Ha]]; [auto|lia|right].
      replace (addr + N.of_nat (o + 8 * i))%N with (addr + N.of_nat o + N.of_nat i * 8)%N by lia.
      change (N.of_nat 8) with 8%N. rewrite N.mod_add by lia. exact Ha.
Qed.

Lemma eat1_eq h x : (h < W)%N ->
  mul64 (rotl64 (N.lxor h (mul64 x prime64_5)) 11) prime64_1 = eat1 h x.
Proof.
  intros Hh. unfold eat1. rewrite !mul64_eq.
  rewrite rotl_rol; [reflexivity| |lia]. apply lxor_lt; auto using mod_W.
Qed.

Lemma nth_skipn p : p < length d -> skipn p d = nth p d 0%N :: skipn (p + 1) d.
Proof.
  clear. revert p; induction d as [|x l IH]; intros p Hp; simpl in Hp; [lia|].
  destruct p as [|p]; [reflexivity|]. cbn [skipn nth Nat.add]. apply IH. lia.
Qed.

Lemma bytes_loop_ok fuel : forall p h, length d - p < fuel -> (h < W)%N ->
  xx_bytes d fuel (N.of_nat p) h = Ok (fold_left eat1 (skipn p d) h) /\
  (fold_left eat1 (skipn p d) h < W)%N.
Proof using.
  induction fuel as [|fuel IH]; intros p h Hp Hh; [lia|]. cbn [xx_bytes].
  destruct (N.ltb_spec (N.of_nat p) (blen d)) as [L|L]; unfold blen in L.
  - rewrite eat1_eq by auto. unfold nthN. rewrite Nat2N.id.
    replace (N.of_nat p + 1)%N with (N.of_nat (p + 1)) by lia.
    rewrite (nth_skipn p) by lia. cbn [fold_left].
    apply IH; [lia|]. apply mod_W.
  - rewrite skipn_all2 by lia. auto.
Qed.

Lemma eat4_eq h x : (h < W)%N ->
  add64 (mul64 (rotl64 (N.lxor h (mul64 x prime64_1)) 23) prime64_2) prime64_3 = eat4 h x.
Proof.
  intros Hh. unfold eat4. rewrite add64_eq, !mul64_eq, add_mod_l.
  rewrite rotl_rol; [reflexivity| |lia]. apply lxor_lt; auto using mod_W.
Qed.

(** From the last stripe on. *)
Lemma rest_ok al h : (h < W)%N ->
  let o := 32 * (length d / 32) in
  (al = false \/ (length d < 8 /\ (length d < 4 \/ (addr mod 4 = 0)%N))) ->
  rbind (xx_words le al addr d (S (length d)) (N.of_nat o) h) (fun '(p, h) =>
  rbind
    (if (p + 4 <=? blen d)%N then
       rbind (read_le 4 le al addr d p) (fun x =>
       let h := N.lxor h (mul64 x prime64_1) in
       let h := add64 (mul64 (rotl64 h 23) prime64_2) prime64_3 in
       Ok (p + 4, h)%N)
     else Ok (p, h))
    (fun '(p, h) =>
  rbind (xx_bytes d (S (length d)) p h) (fun h =>
  let h := N.lxor h (N.shiftr h 33) in
  let h := mul64 h prime64_2 in
  let h := N.lxor h (N.shiftr h 29) in
  let h := mul64 h prime64_3 in
  let h := N.lxor h (N.shiftr h 32) in
  Ok h))) = Ok (avalanche (finish_input d h)).
Proof using Hd.
  intros Hh o Hal.
  assert (Ho : o <= length d) by (apply Nat.mul_div_le; lia).
  assert (H8 : (length d - o) / 8 <= length d).
  { transitivity (length d - o); [apply Nat.div_le_upper_bound; lia|lia]. }
  destruct (words_ok o al ((length d - o) / 8) (S (length d)) 0 h) as [E1 E2]; try lia.
  rewrite Nat.mul_0_r, Nat.add_0_r in E1. rewrite E1. cbn [rbind].
  unfold finish_input. fold o. set (k8 := (length d - o) / 8) in *.
  fold (words o 0 k8 h). set (h1 := words o 0 k8 h) in *. clearbody h1.
  set (o2 := o + 8 * k8) in *.
  assert (Ho2 : o2 <= length d).
  { unfold o2, k8. pose proof (Nat.mul_div_le (length d - o) 8 ltac:(lia)). lia. }
  assert (Hlt8 : length d - o2 < 8).
  { unfold o2, k8. pose proof (Nat.div_mod (length d - o) 8 ltac:(lia)).
    pose proof (Nat.mod_upper_bound (length d - o) 8 ltac:(lia)). lia. }
  assert (Al : al = false \/ length d < 4 \/ ((addr + N.of_nat o2) mod 4 = 0)%N).
  { destruct Hal as [->|[L [L'|L']]]; auto. right; right.
    replace o2 with 0. { rewrite N.add_0_r. auto. }
    unfold o2, k8, o. rewrite (Nat.div_small (length d) 32) by lia.
    rewrite Nat.mul_0_r, Nat.sub_0_r. rewrite Nat.div_small by lia. lia. }
  clearbody o2.
  destruct (N.leb_spec (N.of_nat o2 + 4) (blen d)) as [L|L]; unfold blen in L.
  - rewrite get_ok by (try (unfold blen; lia); destruct Al as [Al|[Al|Al]]; auto; lia). cbn [rbind]. cbv zeta.
    rewrite eat4_eq by auto.
    replace (N.of_nat o2 + 4)%N with (N.of_nat (o2 + 4)) by lia.
    replace ((length d - o2) / 4) with 1.
    2:{ symmetry. replace (length d - o2) with (length d - o2 - 4 + 1 * 4) by lia.
        rewrite Nat.div_add by lia. rewrite Nat.div_small by lia. reflexivity. }
    cbn [seq fold_left]. rewrite Nat.mul_0_r, Nat.add_0_r, Nat.mul_1_r.
    destruct (bytes_loop_ok (S (length d)) (o2 + 4) (eat4 h1 (le_at d o2 4))) as [E3 E4]; [lia|apply mod_W|].
    rewrite E3. cbn [rbind]. unfold avalanche. cbv zeta. rewrite !mul64_eq, !N.shiftr_div_pow2. reflexivity.
  - replace ((length d - o2) / 4) with 0 by (symmetry; apply Nat.div_small; lia).
    cbn [seq fold_left rbind]. rewrite Nat.mul_0_r, Nat.add_0_r.
    destruct (bytes_loop_ok (S (length d)) o2 h1) as [E3 E4]; [lia|auto|].
    rewrite E3. cbn [rbind]. unfold avalanche. cbv zeta. rewrite !mul64_eq, !N.shiftr_div_pow2. reflexivity.
Qed.

Lemma align_ok al seed : (seed < W)%N ->
  (al = false \/ (length d < 8 /\ (length d < 4 \/ (addr mod 4 = 0)%N))) ->
  xxh64_endian_align le al addr d seed = Ok (XXH64 seed d).
Proof using Hd.
  intros Hs Hal. unfold xxh64_endian_align, XXH64. cbv zeta.
  destruct (N.leb_spec 32 (blen d)) as [L|L]; unfold blen in L.
  - assert (al = false) as -> by (destruct Hal as [|[? _]]; auto; lia).
    assert (H1 : 1 <= length d / 32) by (apply Nat.div_le_lower_bound; lia).
    assert (H2 : length d / 32 <= length d) by (apply Nat.div_le_upper_bound; lia).
    pose proof (stripes_ok (length d / 32 - 1) (S (length d)) 0
      (add64 (add64 seed prime64_1) prime64_2) (add64 seed prime64_2) (add64 seed 0)
      (sub64 seed prime64_1)) as E.
    rewrite Nat.mul_0_r in E. change (N.of_nat 0) with 0%N in E. rewrite E by lia. clear E.
    cbn [rbind]. rewrite !merge_eq.
    unfold start_acc. replace (length d <? 32) with false by (symmetry; apply Nat.ltb_ge; lia).
    replace (S (length d / 32 - 1)) with (length d / 32) by lia.
    change (lanes 0 0 (length d / 32)) with (accumulate d 0).
    change (lanes 1 0 (length d / 32)) with (accumulate d 1).
    change (lanes 2 0 (length d / 32)) with (accumulate d 2).
    change (lanes 3 0 (length d / 32)) with (accumulate d 3).
    rewrite (add64_eq (add64 seed prime64_1)), !(add64_eq seed), add_mod_l, N.add_0_r.
    rewrite (N.mod_small seed) by auto.
    change (sub64 seed prime64_1) with ((seed + (W - PRIME1)) mod W)%N.
    change prime64_1 with PRIME1. change prime64_2 with PRIME2.
    assert (A : forall j v, (v < W)%N -> (accumulate d j v < W)%N).
    { intros j v Hv. unfold accumulate. generalize (seq 0 (length d / 32)). intros l. revert v Hv.
      induction l as [|x l IH]; intros v Hv; cbn [fold_left]; auto. apply IH, xround_lt. }
    rewrite !rotl_rol by (try lia; apply A; auto using mod_W).
    set (a1 := accumulate d 0 _). set (a2 := accumulate d 1 _). set (a3 := accumulate d 2 _).
    set (a4 := accumulate d 3 _).
    rewrite add64_4.
    fold (converge a1 a2 a3 a4). rewrite add64_eq.
    apply rest_ok; auto using mod_W.
  - assert (length d < 32) by lia. cbn [rbind]. unfold start_acc.
    replace (length d <? 32) with true by (symmetry; apply Nat.ltb_lt; lia).
    rewrite !add64_eq. change prime64_5 with PRIME5. unfold blen at 1.
    pose proof (rest_ok al (((seed + PRIME5) mod W + N.of_nat (length d)) mod W)%N) as R.
    cbv zeta in R. rewrite (Nat.div_small (length d) 32) in R by lia. rewrite Nat.mul_0_r in R.
    apply R; auto. apply mod_W.
Qed.

Lemma align_ub seed : (addr mod 8 <> 0)%N -> 8 <= length d ->
  xxh64_endian_align le true addr d seed = Er EUB.
Proof using.
  intros Ha Hl. 
  assert (R : read_le 8 le true addr d 0 = Er EUB).
  { unfold read_le. rewrite N.add_0_r. change (N.of_nat 8) with 8%N.
    destruct (N.eqb_spec (addr mod 8) 0); [contradiction|reflexivity]. }
  unfold xxh64_endian_align. cbv zeta. destruct (N.leb_spec 32 (blen d)).
  - cbn [xx_stripes]. rewrite R. reflexivity.
  - cbn [rbind xx_words]. replace (0 + 8 <=? blen d)%N with true by (unfold blen; lia).
    rewrite R. reflexivity.
Qed.

Lemma align_ub4 seed : (addr mod 4 <> 0)%N -> 4 <= length d < 8 ->
  xxh64_endian_align le true addr d seed = Er EUB.
Proof using.
  intros Ha Hl.
  assert (R : read_le 4 le true addr d 0 = Er EUB).
  { unfold read_le. rewrite N.add_0_r. change (N.of_nat 4) with 4%N.
    destruct (N.eqb_spec (addr mod 4) 0); [contradiction|reflexivity]. }
  unfold xxh64_endian_align. cbv zeta. replace (32 <=? blen d)%N with false by (unfold blen; lia).
  cbn [rbind xx_words]. replace (0 + 8 <=? blen d)%N with false by (unfold blen; lia).
  cbn [rbind]. replace (0 + 4 <=? blen d)%N with true by (unfold blen; lia).
  rewrite R. reflexivity.
Qed.
End Input.

Lemma land7 a : N.land a 7 = a mod 8.
Proof. change 7 with (N.ones 3). rewrite N.land_ones. reflexivity. Qed.

Lemma xxh64_aligned le addr d seed : bytes_ok d -> seed < 2 ^ 64 -> addr mod 8 = 0 ->
  xxh64 le addr d seed = Ok (XXH64 seed d).
Proof.
  intros Hd Hs Ha. unfold xxh64. rewrite land7, Ha. apply align_ok; auto.
Qed.

Lemma xxh64_misaligned le addr d seed : bytes_ok d -> seed < 2 ^ 64 -> addr mod 8 <> 0 ->
  xxh64 le addr d seed =
    if (8 <=? blen d) || (4 <=? blen d) && negb (addr mod 4 =? 0) then Er EUB
    else Ok (XXH64 seed d).
Proof.
  intros Hd Hs Ha. unfold xxh64. rewrite land7. destruct (N.eqb_spec (addr mod 8) 0); [contradiction|].
  destruct (N.leb_spec 8 (blen d)) as [L|L]; cbn [orb]; unfold blen in L.
  { apply align_ub; auto. lia. }
  destruct (N.leb_spec 4 (blen d)) as [L4|L4]; cbn [andb]; unfold blen in L4.
  - destruct (N.eqb_spec (addr mod 4) 0) as [E|E]; cbn [negb].
    + apply align_ok; auto. right. split; [lia|]. auto.
    + apply align_ub4; auto. lia.
  - apply align_ok; auto. right. lia.
Qed.
