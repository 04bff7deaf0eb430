(** The statements of Props/ObjectLifeProps.v. *)
From Verif Require Import Model.Bytes Model.IO Model.ObjectLife.

Definition three : held := [(VMember, FLog); (VMember, FKey); (VMember, FDat)].

(** What a store has open between calls. *)
Definition kept (o : sobj) : Prop :=
  (o_open o = true /\ o_held o = three) \/ (o_open o = false /\ (o_held o = [] \/ o_held o = three)).

Lemma open_kept px t o o' ok : kept o -> so_do_open px t o = Some (o', ok) ->
  o_open o' = ok /\ (ok = true -> o_held o' = three) /\ (ok = false -> o_held o' = o_held o).
Proof.
  intros K H. destruct o as [op so h]. unfold kept in K. cbn [o_open o_held] in K.
  destruct K as [[-> ->]|[-> K]]; [discriminate H|].
  destruct t as [[a1 b1 a2 b2 a3 b3] [c1 d1 c2 d2 c3 d3] sh].
  destruct K as [->| ->]; destruct px;
    (destruct a1; try destruct b1;
     try (injection H as <- <-; repeat split; intros; try discriminate; reflexivity);
     destruct a2; try destruct b2;
     try (injection H as <- <-; repeat split; intros; try discriminate; reflexivity);
     destruct a3; try destruct b3;
     try (injection H as <- <-; repeat split; intros; try discriminate; reflexivity);
     destruct c1; try destruct d1;
     try (injection H as <- <-; repeat split; intros; try discriminate; reflexivity);
     destruct c2; try destruct d2;
     try (injection H as <- <-; repeat split; intros; try discriminate; reflexivity);
     destruct c3; try destruct d3;
     try (injection H as <- <-; repeat split; intros; try discriminate; reflexivity);
     destruct sh; injection H as <- <-; repeat split; intros; try discriminate; reflexivity).
Qed.

Lemma close_kept b e o : kept o ->
  let r := so_do_close b e o in
  o_open (fst r) = false /\ (o_open o = true -> b = false -> o_held (fst r) = [] /\ snd r = e) /\
  (o_open o = true -> b = true -> o_held (fst r) = three /\ snd r = false) /\
  (o_open o = false -> fst r = o).
Proof.
  intros K. destruct o as [op so h]. unfold kept in K. cbn [o_open o_held] in *.
  destruct K as [[-> ->]|[-> K]]; destruct b; cbn; repeat split; intros; try discriminate; try reflexivity.
  all: try apply Bool.andb_true_r.
Qed.
Lemma kept_open px t o o' ok : kept o -> so_do_open px t o = Some (o', ok) -> kept o'.
Proof.
  intros K H. destruct (open_kept px t o o' ok K H) as (H1 & H2 & H3). unfold kept. destruct ok; [left; auto|right].
  split; [exact H1|]. rewrite (H3 eq_refl). destruct K as [[_ K]|[_ K]]; auto.
Qed.
Lemma kept_close b e o : kept o -> kept (fst (so_do_close b e o)).
Proof.
  intros K. destruct (close_kept b e o K) as (H1 & H2 & H3 & H4). unfold kept. right. split; [exact H1|].
  destruct (o_open o) eqn:E; [destruct b|].
  - right. apply H3; reflexivity.
  - left. apply H2; reflexivity.
  - rewrite (H4 eq_refl). destruct K as [[K _]|[_ K]]; [congruence|exact K].
Qed.
Lemma kept_calls px l : forall o o', kept o -> so_calls px l o = Some o' -> kept o'.
Proof.
  induction l as [|[t|b e] l IH]; intros o o' K H; cbn [so_calls] in H; [congruence| |].
  - destruct (so_do_open px t o) as [[o1 ok]|] eqn:E; [|discriminate]. eapply IH; [|exact H]. eapply kept_open; eauto.
  - eapply IH; [|exact H]. apply kept_close. exact K.
Qed.
Lemma kept_new px l o : so_calls px l so_new = Some o -> kept o.
Proof. intros H. eapply kept_calls; [|exact H]. right. auto. Qed.

Lemma three_once : NoDup three /\ forall v f, In (v, f) three <-> v = VMember.
Proof.
  split.
  - repeat constructor; cbn; intuition discriminate.
  - intros v f. split; [cbn; intuition congruence|]. intros ->. destruct f; cbn; auto.
Qed.

Lemma destroyed px l o b e : so_calls px l so_new = Some o -> so_destroy b e o = [].
Proof.
  intros H. apply kept_new in H. pose proof (kept_close b e o H) as K. unfold so_destroy.
  destruct K as [[_ K]|[_ [K|K]]]; rewrite K; reflexivity.
Qed.

Lemma reopen_posix o t : kept o -> o_open o = false ->
  (exists l, (l = AMissing \/ l = AOpens) /\ ot_recover t = Tries AOpens false AOpens false l false) ->
  ot_open t = Tries AOpens false AOpens false AOpens false -> ot_short t = false ->
  exists o', so_do_open true t o = Some (o', true) /\ o_held o' = three.
Proof.
  intros K Ho (l & Hl & H1) H2 H3. destruct t as [t1 t2 sh]. cbn [ot_recover ot_open ot_short] in *. subst.
  destruct o as [op so h]. unfold kept in K. cbn [o_open o_held] in *. subst op.
  destruct K as [[K _]|[_ K]]; [discriminate|]. destruct K as [->| ->]; destruct Hl as [->| ->]; eexists; split; reflexivity.
Qed.

Lemma stuck_win32 l : forall o o', o_open o = false -> o_held o = three -> so_calls false l o = Some o' ->
  o_open o' = false /\ o_held o' = three.
Proof.
  induction l as [|[t|b e] l IH]; intros o o' H1 H2 H; cbn [so_calls] in H.
  - injection H as <-. auto.
  - destruct (so_do_open false t o) as [[o1 ok]|] eqn:E; [|discriminate]. apply (IH o1 o'); auto; clear H IH;
      (destruct o as [op so h]; cbn [o_open o_held] in *; subst; injection E as <- <-; reflexivity).
  - eapply (IH (fst (so_do_close b e o)) o'); [| |exact H]; unfold so_do_close; rewrite H1; assumption.
Qed.
