(** Facts about byte strings. *)
From Verif Require Export Model.Bytes.

Ltac splits := repeat match goal with |- _ /\ _ => split end.
Ltac blia := unfold bytes in *; lia.
Ltac bnia := unfold bytes in *; nia.
Ltac nia' := unfold blen in *; lia.

Section Lists.
Context {A : Type}.
Implicit Types l a b : list A.

Lemma blen_nil : blen (@nil A) = 0.
Proof. reflexivity. Qed.
Lemma blen_cons x l : blen (x :: l) = blen l + 1.
Proof. unfold blen; simpl length; lia. Qed.
Lemma blen_app a b : blen (a ++ b) = blen a + blen b.
Proof. unfold blen; rewrite app_length; lia. Qed.
Lemma blen_btake n l : blen (btake n l) = N.min n (blen l).
Proof. unfold blen, btake; rewrite firstn_length; lia. Qed.
Lemma blen_btake_le n l : n <= blen l -> blen (btake n l) = n.
Proof. rewrite blen_btake; lia. Qed.
Lemma blen_bdrop n l : blen (bdrop n l) = blen l - n.
Proof. unfold blen, bdrop; rewrite skipn_length; lia. Qed.
Lemma blen_bsub o n l : o + n <= blen l -> blen (bsub o n l) = n.
Proof. intros; unfold bsub; rewrite blen_btake, blen_bdrop; lia. Qed.
Lemma blen_0 l : blen l = 0 -> l = [].
Proof. destruct l; auto; rewrite blen_cons; lia. Qed.

Lemma btake_0 l : btake 0 l = [].
Proof. reflexivity. Qed.
Lemma bdrop_0 l : bdrop 0 l = l.
Proof. reflexivity. Qed.
Lemma btake_nil n : btake n (@nil A) = [].
Proof. apply firstn_nil. Qed.
Lemma bdrop_nil n : bdrop n (@nil A) = [].
Proof. apply skipn_nil. Qed.
Lemma btake_all n l : blen l <= n -> btake n l = l.
Proof. intros; apply firstn_all2; nia'. Qed.
Lemma bdrop_all n l : blen l <= n -> bdrop n l = [].
Proof. intros; apply skipn_all2; nia'. Qed.
Lemma btake_bdrop n l : btake n l ++ bdrop n l = l.
Proof. apply firstn_skipn. Qed.
Lemma btake_app n a b : btake n (a ++ b) = btake n a ++ btake (n - blen a) b.
Proof.
  unfold btake; rewrite firstn_app. f_equal; f_equal; nia'.
Qed.
Lemma bdrop_app n a b : bdrop n (a ++ b) = bdrop n a ++ bdrop (n - blen a) b.
Proof.
  unfold bdrop; rewrite skipn_app. f_equal; f_equal; nia'.
Qed.
Lemma btake_app_l n a b : n <= blen a -> btake n (a ++ b) = btake n a.
Proof.
  intros; rewrite btake_app. replace (n - blen a) with 0 by lia.
  rewrite btake_0, app_nil_r; auto.
Qed.
Lemma btake_app_eq n a b : n = blen a -> btake n (a ++ b) = a.
Proof. intros; rewrite btake_app_l by lia. apply btake_all; lia. Qed.
Lemma btake_app_r n a b : blen a <= n -> btake n (a ++ b) = a ++ btake (n - blen a) b.
Proof. intros; rewrite btake_app, (btake_all n a) by lia; auto. Qed.
Lemma bdrop_app_r n a b : blen a <= n -> bdrop n (a ++ b) = bdrop (n - blen a) b.
Proof. intros; rewrite bdrop_app, (bdrop_all n a) by lia; auto. Qed.
Lemma bdrop_app_l n a b : n <= blen a -> bdrop n (a ++ b) = bdrop n a ++ b.
Proof. intros; rewrite bdrop_app. replace (n - blen a) with 0 by lia. auto. Qed.
Lemma bdrop_app_eq n a b : n = blen a -> bdrop n (a ++ b) = b.
Proof. intros; rewrite bdrop_app_r by lia. replace (n - blen a) with 0 by lia. auto. Qed.
Lemma bdrop_bdrop n m l : bdrop n (bdrop m l) = bdrop (m + n) l.
Proof.
  unfold bdrop. replace (N.to_nat (m + n)) with (N.to_nat m + N.to_nat n)%nat by lia.
  generalize (N.to_nat m) (N.to_nat n). clear.
  intros m n; revert l; induction m as [|m IH]; intros [|x l]; simpl; auto.
  apply skipn_nil.
Qed.
Lemma btake_btake n m l : btake n (btake m l) = btake (N.min n m) l.
Proof.
  unfold btake. rewrite firstn_firstn. f_equal; lia.
Qed.
Lemma bdrop_btake n m l : bdrop n (btake m l) = btake (m - n) (bdrop n l).
Proof.
  unfold btake, bdrop. rewrite skipn_firstn_comm. f_equal; lia.
Qed.

Lemma bsub_app_l o n a b : o + n <= blen a -> bsub o n (a ++ b) = bsub o n a.
Proof.
  intros; unfold bsub. rewrite bdrop_app_l by lia.
  apply btake_app_l. rewrite blen_bdrop; lia.
Qed.
Lemma bsub_app_r o n a b : blen a <= o -> bsub o n (a ++ b) = bsub (o - blen a) n b.
Proof. intros; unfold bsub. rewrite bdrop_app_r by lia; auto. Qed.
Lemma bsub_app_eq o n a b c : o = blen a -> n = blen b -> bsub o n (a ++ b ++ c) = b.
Proof.
  intros; unfold bsub. rewrite bdrop_app_eq by lia. apply btake_app_eq; auto.
Qed.
Lemma bsub_app_eq' o n a b : o = blen a -> n = blen b -> bsub o n (a ++ b) = b.
Proof.
  intros; unfold bsub. rewrite bdrop_app_eq by lia. apply btake_all; lia.
Qed.
Lemma bsub_bsub o n o' n' l : o' + n' <= n -> bsub o' n' (bsub o n l) = bsub (o + o') n' l.
Proof.
  intros; unfold bsub. rewrite bdrop_btake, bdrop_bdrop, btake_btake.
  f_equal; lia.
Qed.
Lemma bsub_btake o n m l : o + n <= m -> bsub o n (btake m l) = bsub o n l.
Proof.
  intros; unfold bsub. rewrite bdrop_btake, btake_btake. f_equal; lia.
Qed.
Lemma bsub_0 n l : bsub 0 n l = btake n l.
Proof. reflexivity. Qed.
Lemma bsub_split o n m l : bsub o (n + m) l = bsub o n l ++ bsub (o + n) m l.
Proof.
  unfold bsub. rewrite <- bdrop_bdrop. generalize (bdrop o l); clear; intro l.
  unfold btake, bdrop.
  replace (N.to_nat (n + m)) with (N.to_nat n + N.to_nat m)%nat by lia.
  generalize (N.to_nat m) (N.to_nat n); clear.
  intros m n; revert l; induction n as [|n IH]; intros [|x l]; simpl; auto.
  - rewrite firstn_nil; auto.
  - f_equal; apply IH.
Qed.
Lemma bsub_all l : bsub 0 (blen l) l = l.
Proof. rewrite bsub_0. apply btake_all; lia. Qed.

Lemma list_eq_nth a b :
  length a = length b ->
  (forall i d, (i < length a)%nat -> nth i a d = nth i b d) -> a = b.
Proof.
  revert b; induction a as [|x a IH]; intros [|y b]; simpl; intros HL H; auto; try lia.
  f_equal.
  - apply (H 0%nat x); lia.
  - apply IH; [lia|]. intros i d Hi. apply (H (S i) d); lia.
Qed.

End Lists.

Lemma blen_map {A B} (f : A -> B) l : blen (map f l) = blen l.
Proof. unfold blen; rewrite map_length; auto. Qed.
Lemma blen_zeros n : blen (zeros n) = n.
Proof. unfold blen, zeros; rewrite repeat_length; lia. Qed.
Lemma zeros_app n m : zeros n ++ zeros m = zeros (n + m).
Proof.
  unfold zeros. rewrite <- repeat_app. f_equal; lia.
Qed.
Lemma zeros_0 : zeros 0 = [].
Proof. reflexivity. Qed.

Lemma bwrite_in o d f :
  o + blen d <= blen f ->
  bwrite o d f = btake o f ++ d ++ bdrop (o + blen d) f.
Proof.
  intros; unfold bwrite. replace (o - blen f) with 0 by lia.
  rewrite zeros_0, app_nil_r; auto.
Qed.
Lemma blen_bwrite o d f : o + blen d <= blen f -> blen (bwrite o d f) = blen f.
Proof.
  intros; rewrite bwrite_in by lia. rewrite !blen_app, blen_btake, blen_bdrop; lia.
Qed.
Lemma blen_bwrite_gen o d f : blen (bwrite o d f) = N.max (blen f) (o + blen d).
Proof.
  unfold bwrite. rewrite !blen_app, blen_btake, blen_bdrop, !blen_app, blen_zeros; lia.
Qed.
Lemma bwrite_end o d f : o = blen f -> bwrite o d f = f ++ d.
Proof.
  intros ->. unfold bwrite. replace (blen f - blen f) with 0 by lia.
  rewrite zeros_0, app_nil_r. rewrite btake_all, bdrop_all, app_nil_r by lia. auto.
Qed.
Lemma bwrite_app3 o d a b c :
  o = blen a -> blen d = blen b -> bwrite o d (a ++ b ++ c) = a ++ d ++ c.
Proof.
  intros. rewrite bwrite_in by (rewrite !blen_app; lia).
  rewrite btake_app_eq by auto. f_equal. f_equal.
  rewrite bdrop_app_r by lia. apply bdrop_app_eq; lia.
Qed.
Lemma bwrite_0 d b c : blen d = blen b -> bwrite 0 d (b ++ c) = d ++ c.
Proof. intros. apply (bwrite_app3 0 d [] b c); auto. Qed.

Lemma beq_eq a b : beq a b = true <-> a = b.
Proof.
  revert b; induction a as [|x a IH]; intros [|y b]; simpl; split; intro H;
    try discriminate; auto.
  - apply andb_true_iff in H as [H1 H2]. apply N.eqb_eq in H1. apply IH in H2. congruence.
  - inversion H; subst. rewrite N.eqb_refl; simpl. apply IH; auto.
Qed.
Lemma beq_refl a : beq a a = true.
Proof. apply beq_eq; auto. Qed.
Lemma beq_neq a b : beq a b = false <-> a <> b.
Proof.
  destruct (beq a b) eqn:E; split; intro H; auto; try discriminate.
  - apply beq_eq in E; contradiction.
  - intro; subst. rewrite beq_refl in E; discriminate.
Qed.

Lemma blt_irrefl a : blt a a = false.
Proof. induction a as [|x a IH]; simpl; auto. rewrite N.ltb_irrefl; auto. Qed.
Lemma blt_trans a b c : blt a b = true -> blt b c = true -> blt a c = true.
Proof.
  revert b c; induction a as [|x a IH]; intros [|y b] [|z c]; simpl; auto; try discriminate.
  destruct (x <? y) eqn:E1; destruct (y <? z) eqn:E2; intros.
  - replace (x <? z) with true by lia; auto.
  - destruct (z <? y) eqn:E3; [discriminate|].
    replace (x <? z) with true by lia; auto.
  - destruct (y <? x) eqn:E3; [discriminate|].
    replace (x <? z) with true by lia; auto.
  - destruct (y <? x) eqn:E3; [discriminate|].
    destruct (z <? y) eqn:E4; [discriminate|].
    replace (x <? z) with false by lia. replace (z <? x) with false by lia.
    eapply IH; eauto.
Qed.
Lemma blt_total a b : blt a b = false -> blt b a = false -> a = b.
Proof.
  revert b; induction a as [|x a IH]; intros [|y b]; simpl; auto; try discriminate.
  destruct (x <? y) eqn:E1; destruct (y <? x) eqn:E2; try discriminate; intros.
  f_equal; [lia|]. auto.
Qed.

Lemma bytes_ok_app a b : bytes_ok (a ++ b) <-> bytes_ok a /\ bytes_ok b.
Proof. apply Forall_app. Qed.
Lemma bytes_ok_zeros n : bytes_ok (zeros n).
Proof. apply Forall_forall. intros x H. apply repeat_spec in H. lia. Qed.
Lemma bytes_ok_btake n l : bytes_ok l -> bytes_ok (btake n l).
Proof.
  intros H. rewrite <- (btake_bdrop n l) in H. apply bytes_ok_app in H; tauto.
Qed.
Lemma bytes_ok_bdrop n l : bytes_ok l -> bytes_ok (bdrop n l).
Proof.
  intros H. rewrite <- (btake_bdrop n l) in H. apply bytes_ok_app in H; tauto.
Qed.
Lemma bytes_ok_bsub o n l : bytes_ok l -> bytes_ok (bsub o n l).
Proof. intros; apply bytes_ok_btake, bytes_ok_bdrop; auto. Qed.
Lemma bytes_ok_bwrite o d f : bytes_ok d -> bytes_ok f -> bytes_ok (bwrite o d f).
Proof.
  intros; unfold bwrite. rewrite !bytes_ok_app.
  assert (bytes_ok (f ++ zeros (o - blen f))).
  { apply bytes_ok_app; split; auto using bytes_ok_zeros. }
  repeat split; auto using bytes_ok_btake, bytes_ok_bdrop.
Qed.

Global Arguments N.add : simpl never.
Global Arguments N.mul : simpl never.
Global Arguments N.sub : simpl never.
Global Arguments N.div : simpl never.
Global Arguments N.modulo : simpl never.
Global Arguments N.eqb : simpl never.
Global Arguments N.ltb : simpl never.
Global Arguments N.leb : simpl never.
Global Arguments N.max : simpl never.
Global Arguments N.min : simpl never.
Global Arguments bsub : simpl never.
Global Arguments btake : simpl never.
Global Arguments bdrop : simpl never.
Global Arguments blen : simpl never.
Global Arguments zeros : simpl never.
Global Arguments bwrite : simpl never.
