(** Numbers shown by the tool. *)
From Coq Require Import String Ascii DecimalString DecimalN DecimalPos.
From Verif Require Import Model.Bytes Model.Tool SpecTool Proofs.BytesFacts.
Local Open Scope string_scope.
Local Open Scope list_scope.
Local Open Scope N_scope.

(** ** log2 *)
Lemma log2_step_ok k i n : 0 < n -> n < 2 ^ (2 * k) ->
  let '(i', n') := log2_step k (i, n) in
  0 < n' /\ n' < 2 ^ k /\ (i' + Z.of_N (N.log2 n') = i + Z.of_N (N.log2 n))%Z.
Proof.
  intros H0 Hk. unfold log2_step. destruct (2 ^ k <=? n) eqn:E.
  - apply N.leb_le in E. assert (Hp : 2 ^ k <> 0) by (apply N.pow_nonzero; lia).
    assert (Hl : k <= N.log2 n) by (apply N.log2_le_pow2; auto).
    split. { apply N.div_str_pos. split; [lia|exact E]. }
    split. { apply N.div_lt_upper_bound; auto. rewrite <- N.pow_add_r. replace (k + k) with (2 * k) by lia. exact Hk. }
    rewrite <- N.shiftr_div_pow2, N.log2_shiftr. lia.
  - apply N.leb_gt in E. split; auto.
Qed.

Lemma tool_log2_ok n : 0 < n -> n < 2 ^ 64 -> tool_log2 n = Z.of_N (N.log2 n).
Proof.
  intros H0 Hn. unfold tool_log2. replace (n =? 0) with false by lia.
  pose proof (log2_step_ok 32 0 n H0 Hn) as S1. destruct (log2_step 32 (0%Z, n)) as [i1 n1].
  destruct S1 as (A1 & B1 & C1).
  pose proof (log2_step_ok 16 i1 n1 A1 B1) as S2. destruct (log2_step 16 (i1, n1)) as [i2 n2].
  destruct S2 as (A2 & B2 & C2).
  pose proof (log2_step_ok 8 i2 n2 A2 B2) as S3. destruct (log2_step 8 (i2, n2)) as [i3 n3].
  destruct S3 as (A3 & B3 & C3).
  pose proof (log2_step_ok 4 i3 n3 A3 B3) as S4. destruct (log2_step 4 (i3, n3)) as [i4 n4].
  destruct S4 as (A4 & B4 & C4).
  pose proof (log2_step_ok 2 i4 n4 A4 B4) as S5. destruct (log2_step 2 (i4, n4)) as [i5 n5].
  destruct S5 as (A5 & B5 & C5).
  pose proof (log2_step_ok 1 i5 n5 A5 B5) as S6. destruct (log2_step 1 (i5, n5)) as [i6 n6].
  destruct S6 as (A6 & B6 & C6). cbn [fst].
  change (2 ^ 1) with 2 in B6. assert (n6 = 1) by lia. subst n6. change (N.log2 1) with 0 in C6. lia.
Qed.

(** ** fdec *)
Definition digit (c : ascii) : Prop := In c (list_ascii_of_string "0123456789").

Lemma digits_empty u : Forall digit (list_ascii_of_string (NilEmpty.string_of_uint u)).
Proof.
  induction u; cbn [NilEmpty.string_of_uint list_ascii_of_string]; constructor; auto; unfold digit; simpl; tauto.
Qed.
Lemma digits_zero u : Forall digit (list_ascii_of_string (NilZero.string_of_uint u)).
Proof.
  destruct u; try apply (digits_empty (Decimal.D0 u)) || apply digits_empty; [|..];
    try (unfold NilZero.string_of_uint; apply digits_empty).
  cbn. constructor; [|constructor]. unfold digit. simpl. tauto.
Qed.
Lemma to_string_digits n : Forall digit (to_string n).
Proof. apply digits_zero. Qed.

Lemma digit_no_comma c : digit c -> c <> ","%char.
Proof. intros H ->. unfold digit in H. simpl in H. repeat (destruct H as [H|H]; [discriminate H|]). exact H. Qed.
Lemma not_comma_digits l : Forall digit l -> filter not_comma l = l.
Proof.
  induction 1 as [|c l Hc H IH]; [reflexivity|]. cbn [filter]. unfold not_comma at 1.
  destruct (Ascii.eqb_spec c ","%char) as [->|_]; [exfalso; eapply digit_no_comma; eauto|].
  cbn [negb]. rewrite IH. reflexivity.
Qed.

Lemma fdec_loop_digits s : Forall digit s -> forall n s2,
  filter not_comma (fdec_loop s n s2) = rev s ++ filter not_comma s2.
Proof.
  induction 1 as [|c s Hc H IH]; intros n s2; [reflexivity|]. cbn [fdec_loop rev].
  pose proof (not_comma_digits [c] ltac:(constructor; [exact Hc|constructor])) as Hf. cbn [filter] in Hf.
  destruct (Nat.eqb n 3); rewrite IH, <- app_assoc; f_equal; cbn [filter app];
    destruct (not_comma c); try discriminate Hf; reflexivity.
Qed.

Lemma fdec_digits n : filter not_comma (fdec n) = to_string n.
Proof.
  unfold fdec. rewrite fdec_loop_digits by (apply Forall_rev, to_string_digits).
  cbn [filter]. rewrite rev_involutive, app_nil_r. reflexivity.
Qed.

Lemma placed_snoc l c : placed_commas l -> (c = ","%char <-> (length l mod 4 = 3)%nat) -> placed_commas (l ++ [c]).
Proof.
  intros H Hc i x Hx. destruct (Nat.lt_ge_cases i (length l)) as [L|L].
  - rewrite nth_error_app1 in Hx by exact L. auto.
  - rewrite nth_error_app2 in Hx by exact L. destruct (i - length l)%nat as [|j] eqn:E.
    + assert (i = length l) by lia. subst i. cbn in Hx. injection Hx as <-. exact Hc.
    + cbn in Hx. destruct j; discriminate.
Qed.

Lemma fdec_loop_placed s : Forall digit s -> forall n s2,
  (n <= 3)%nat -> (length s2 mod 4 = n)%nat -> placed_commas (rev s2) -> placed_commas (rev (fdec_loop s n s2)).
Proof.
  induction 1 as [|c s Hc H IH]; intros n s2 Hn Hl Hp; [exact Hp|]. cbn [fdec_loop].
  pose proof (digit_no_comma _ Hc) as Hd.
  assert (Em : forall m, (S m mod 4 = S (m mod 4) mod 4)%nat).
  { intros m. replace (S m) with (1 + m)%nat by lia. replace (S (m mod 4)) with (1 + m mod 4)%nat by lia.
    rewrite Nat.add_mod_idemp_r by discriminate. reflexivity. }
  destruct (Nat.eqb_spec n 3) as [->|Hne].
  - apply IH; [lia| |].
    + cbn [length]. rewrite (Em (S (length s2))), (Em (length s2)), Hl. reflexivity.
    + cbn [rev]. apply placed_snoc.
      * apply placed_snoc; [exact Hp|]. rewrite rev_length, Hl. split; reflexivity.
      * rewrite app_length, rev_length. cbn [length]. replace (length s2 + 1)%nat with (S (length s2)) by lia.
        rewrite (Em (length s2)), Hl. split; [contradiction|discriminate].
  - apply IH; [lia| |].
    + cbn [length]. rewrite (Em (length s2)), Hl. apply Nat.mod_small. lia.
    + cbn [rev]. apply placed_snoc; [exact Hp|]. rewrite rev_length, Hl. split; [contradiction|lia].
Qed.

Lemma fdec_placed n : placed_commas (rev (fdec n)).
Proof.
  unfold fdec. apply fdec_loop_placed; [apply Forall_rev, to_string_digits|lia|reflexivity|].
  intros i c Hc. destruct i; discriminate Hc.
Qed.

Lemma fdec_loop_head s : Forall digit s -> s <> [] -> forall n s2, exists c r, fdec_loop s n s2 = c :: r /\ c <> ","%char.
Proof.
  induction 1 as [|c s Hc H IH]; intros Hs n s2; [contradiction|]. cbn [fdec_loop].
  assert (X : forall m s3, exists c' r, fdec_loop s m (c :: s3) = c' :: r /\ c' <> ","%char).
  { intros m s3. destruct s as [|c' s']; [exists c, s3; split; [reflexivity|apply digit_no_comma; exact Hc]|].
    apply IH. discriminate. }
  destruct n as [|[|[|[|n]]]]; apply X.
Qed.

Lemma to_uint_nonnil n : N.to_uint n <> Decimal.Nil.
Proof. destruct n as [|q]; [discriminate|]. apply Unsigned.to_uint_nonnil. Qed.

Lemma to_string_number n : decimal (to_string n) = Some n.
Proof.
  unfold decimal, to_string. rewrite string_of_list_ascii_of_string.
  rewrite NilZero.usu by apply to_uint_nonnil. cbn [option_map]. rewrite DecimalN.Unsigned.of_to. reflexivity.
Qed.
Lemma to_string_some n : to_string n <> [].
Proof. intros E. pose proof (to_string_number n) as H. rewrite E in H. discriminate H. Qed.

Lemma fdec_ok n : decimal (filter not_comma (fdec n)) = Some n /\ placed_commas (rev (fdec n)) /\
  exists c r, fdec n = c :: r /\ c <> ","%char.
Proof.
  rewrite fdec_digits. split; [apply to_string_number|]. split; [apply fdec_placed|].
  unfold fdec. apply fdec_loop_head; [apply Forall_rev, to_string_digits|].
  intros E. apply (to_string_some n). rewrite <- (rev_involutive (to_string n)), E. reflexivity.
Qed.

(** ** fhex *)
Lemma hex_digit_value d : d < 16 -> hex_value [hex_digit d] = Some d.
Proof.
  intros H. assert (X : In d [0;1;2;3;4;5;6;7;8;9;10;11;12;13;14;15]).
  { simpl. lia. }
  simpl in X. repeat (destruct X as [<-|X]; [reflexivity|]). contradiction.
Qed.
Lemma hex_value_snoc l c : hex_value (l ++ [c]) =
  match hex_value l, hex_value [c] with Some x, Some y => Some (16 * x + y) | _, _ => None end.
Proof.
  unfold hex_value. rewrite fold_left_app. cbn [fold_left]. destruct (fold_left hex_next l (Some 0)) as [x|]; cbn [hex_next];
    [|destruct (hex_of c); reflexivity]. destruct (hex_of c); [|reflexivity]. f_equal.
Qed.
Lemma hex_zeros k : hex_value (repeat "0"%char k) = Some 0.
Proof. unfold hex_value. induction k as [|k IH]; [reflexivity|]. exact IH. Qed.

Lemma fhex_loop_ok k : forall v done, v < 16 ^ N.of_nat k ->
  exists ds, fhex_loop (k + 2) v (repeat "0"%char k ++ ["x"; "0"]%char) done = Some ("0"%char :: "x"%char :: ds ++ done) /\
    length ds = k /\ hex_value ds = Some v.
Proof.
  assert (Z : forall k done fuel, fhex_loop fuel 0 (repeat "0"%char k ++ ["x"; "0"]%char) done
              = Some ("0"%char :: "x"%char :: repeat "0"%char k ++ done)).
  { intros k' done fuel. assert (E : rev (repeat "0"%char k' ++ ["x"; "0"]%char) = "0"%char :: "x"%char :: repeat "0"%char k').
    { rewrite rev_app_distr. cbn [rev app]. f_equal. f_equal.
      clear. induction k' as [|k IH]; [reflexivity|]. cbn [repeat rev]. rewrite IH.
      clear. induction k as [|k IH]; [reflexivity|]. cbn [repeat app]. rewrite IH. reflexivity. }
    destruct fuel; cbn [fhex_loop]; change (0 =? 0) with true; cbv iota; rewrite E; reflexivity. }
  induction k as [|k IH]; intros v done Hv.
  - change (16 ^ N.of_nat 0) with 1 in Hv. assert (v = 0) by lia. subst v. exists [].
    split; [apply (Z 0%nat)|]. split; reflexivity.
  - destruct (N.eq_dec v 0) as [->|Hz].
    + exists (repeat "0"%char (S k)). split; [apply (Z (S k))|]. split; [apply repeat_length|apply hex_zeros].
    + assert (Hd : v / 16 < 16 ^ N.of_nat k).
      { apply N.div_lt_upper_bound; [discriminate|]. rewrite Nat2N.inj_succ, N.pow_succ_r' in Hv. exact Hv. }
      destruct (IH (v / 16) (hex_digit (v mod 16) :: done) Hd) as (ds & E & L & V).
      exists (ds ++ [hex_digit (v mod 16)]). split.
      * change (S k + 2)%nat with (S (k + 2)). cbn [fhex_loop repeat app]. replace (v =? 0) with false by lia.
        rewrite E, <- app_assoc. reflexivity.
      * split; [rewrite app_length, L; cbn [length]; lia|].
        rewrite hex_value_snoc, V, hex_digit_value by (apply N.mod_lt; discriminate).
        f_equal. pose proof (N.div_mod v 16 ltac:(discriminate)). lia.
Qed.

Lemma fhex_ok v : v < 2 ^ 64 -> exists ds, fhex v = Some ("0"%char :: "x"%char :: ds) /\
  length ds = 16%nat /\ hex_value ds = Some v.
Proof.
  intros Hv. destruct (fhex_loop_ok 16 v [] Hv) as (ds & E & L & V). exists ds.
  rewrite app_nil_r in E. split; [exact E|]. auto.
Qed.

(** ** fhist *)
Lemma nth_firstn_lt {A} (d : A) : forall n l i, (i < n)%nat -> nth i (firstn n l) d = nth i l d.
Proof.
  induction n as [|n IH]; intros l i Hi; [lia|]. destruct l as [|x l]; [destruct i; reflexivity|].
  destruct i as [|i]; [reflexivity|]. cbn [firstn nth]. apply IH. lia.
Qed.
Lemma nth_repeat_0 m : forall i, nth i (repeat 0 m) 0 = 0.
Proof. induction m as [|m IH]; intros [|i]; cbn [repeat nth]; auto. Qed.
Lemma last_nth {A} (d : A) : forall l, last l d = nth (length l - 1) l d.
Proof.
  induction l as [|x [|y l] IH]; [reflexivity|reflexivity|].
  change (last (x :: y :: l) d) with (last (y :: l) d). rewrite IH. cbn [length]. replace (S (S (length l)) - 1)%nat with (S (S (length l) - 1)) by lia. reflexivity.
Qed.
Lemma fhist_last_le n h : (fhist_last n h <= n)%nat.
Proof. induction n as [|n IH]; cbn [fhist_last]; [lia|]. destruct (nth (S n) h 0 =? 0); lia. Qed.
Lemma fhist_last_zero n h : forall i, (fhist_last n h < i <= n)%nat -> nth i h 0 = 0.
Proof.
  induction n as [|n IH]; intros i Hi; cbn [fhist_last] in Hi; [lia|].
  destruct (nth (S n) h 0 =? 0) eqn:E; [|lia].
  destruct (Nat.eq_dec i (S n)) as [->|]; [apply N.eqb_eq; exact E|]. apply IH. lia.
Qed.
Lemma fhist_last_used n h : fhist_last n h = 0%nat \/ nth (fhist_last n h) h 0 <> 0.
Proof.
  induction n as [|n IH]; cbn [fhist_last]; [auto|].
  destruct (nth (S n) h 0 =? 0) eqn:E; [exact IH|]. right. apply N.eqb_neq. exact E.
Qed.

Lemma fhist_ok h : h <> [] -> exists shown m, h = shown ++ repeat 0 m /\ fhist h = map to_string shown /\
  shown <> [] /\ (length shown = 1%nat \/ last shown 0 <> 0).
Proof.
  intros Hh. set (n := fhist_last (length h - 1) h).
  assert (Hl : (0 < length h)%nat) by (destruct h; [contradiction|cbn; lia]).
  pose proof (fhist_last_le (length h - 1) h) as Hn. fold n in Hn.
  exists (firstn (S n) h), (length h - S n)%nat.
  assert (Lf : length (firstn (S n) h) = S n) by (rewrite firstn_length; lia).
  split.
  { apply (nth_ext _ _ 0 0).
    - rewrite app_length, repeat_length, Lf. lia.
    - intros i Hi. destruct (Nat.lt_ge_cases i (S n)) as [L|L].
      + rewrite app_nth1 by (rewrite Lf; exact L). rewrite nth_firstn_lt by exact L. reflexivity.
      + rewrite app_nth2 by (rewrite Lf; exact L). rewrite nth_repeat_0.
        apply (fhist_last_zero (length h - 1)). fold n. lia. }
  split.
  { unfold fhist. fold n. apply (nth_ext _ _ [] []).
    - rewrite !map_length, seq_length, Lf. reflexivity.
    - intros i Hi. rewrite map_length, seq_length in Hi.
      rewrite (nth_indep _ [] (to_string (nth 0 h 0))) by (rewrite map_length, seq_length; exact Hi).
      rewrite (map_nth (fun i => to_string (nth i h 0)) (seq 0 (S n)) 0%nat i), seq_nth by exact Hi.
      rewrite (nth_indep _ [] (to_string 0)) by (rewrite map_length, Lf; exact Hi).
      rewrite (map_nth to_string), nth_firstn_lt by exact Hi. reflexivity. }
  split. { destruct (firstn (S n) h); [discriminate Lf|discriminate]. }
  destruct (fhist_last_used (length h - 1) h) as [E|E]; fold n in E.
  - left. rewrite Lf, E. reflexivity.
  - right. assert (El : last (firstn (S n) h) 0 = nth n h 0).
    { rewrite last_nth, Lf. replace (S n - 1)%nat with n by lia. apply nth_firstn_lt. lia. }
    rewrite El. exact E.
Qed.
