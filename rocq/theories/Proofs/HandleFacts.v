(** File objects own their descriptors. *)
From Verif Require Import Model.Bytes Model.Handles Proofs.BytesFacts.

Lemma hput_same f i o : hput f i o i = o.
Proof. unfold hput. rewrite N.eqb_refl. reflexivity. Qed.
Lemma hput_other f i o u : u <> i -> hput f i o u = f u.
Proof. unfold hput. destruct (N.eqb_spec u i); congruence. Qed.
Lemma mem_in fd l : existsb (N.eqb fd) l = true <-> In fd l.
Proof.
  rewrite existsb_exists. split.
  - intros (x & Hx & E). apply N.eqb_eq in E. subst. exact Hx.
  - intros H. exists fd. split; [exact H|apply N.eqb_refl].
Qed.

Record hinv (s : hst) : Prop := HInv {
  hi_bad : hs_bad s = [];
  hi_nd : NoDup (hs_open s);
  hi_own : forall fd, In fd (hs_open s) <-> exists i, hs_obj s i = Some (Some fd);
  hi_one : forall i j fd, hs_obj s i = Some (Some fd) -> hs_obj s j = Some (Some fd) -> i = j }.

(** An object that owns nothing is put in the place of another. *)
Lemma put_empty s i o : hinv s -> (forall fd, hs_obj s i <> Some (Some fd)) -> (forall fd, o <> Some (Some fd)) ->
  hinv (set_obj s i o).
Proof.
  intros [H1 H2 H3 H4] Hn Ho. constructor; cbn [set_obj hs_bad hs_open hs_obj]; auto.
  - intros fd. rewrite H3. split; intros (j & Hj); exists j.
    + rewrite hput_other; auto. intros ->. exact (Hn _ Hj).
    + destruct (N.eq_dec j i) as [->|Hji]; [rewrite hput_same in Hj; exfalso; exact (Ho _ Hj)|].
      rewrite hput_other in Hj by auto. exact Hj.
  - intros j k fd Hj Hk.
    destruct (N.eq_dec j i) as [->|Hji]; [rewrite hput_same in Hj; exfalso; exact (Ho _ Hj)|].
    destruct (N.eq_dec k i) as [->|Hki]; [rewrite hput_same in Hk; exfalso; exact (Ho _ Hk)|].
    rewrite hput_other in Hj, Hk by auto. eauto.
Qed.

Lemma hclose_inv s i fd : hinv s -> hs_obj s i = Some fd ->
  hinv (hclose s i fd) /\ hs_obj (hclose s i fd) i = Some None /\
  (forall j, j <> i -> hs_obj (hclose s i fd) j = hs_obj s j).
Proof.
  intros [H1 H2 H3 H4] Hi. destruct fd as [n|]; cbn [hclose]; [|split; [constructor; auto|auto]].
  assert (Hin : In n (hs_open s)) by (apply H3; eauto).
  unfold kclose. rewrite (proj2 (mem_in n (hs_open s)) Hin). cbn [set_obj hs_open hs_errno hs_obj hs_bad].
  split; [|split; [apply hput_same|intros j Hj; apply hput_other; auto]].
  constructor; cbn [set_obj hs_open hs_obj hs_bad]; auto.
  - apply NoDup_filter. exact H2.
  - intros fd. rewrite filter_In, H3. split.
    + intros [(j & Hj) Hne]. exists j. rewrite hput_other; auto. intros ->. rewrite Hi in Hj. injection Hj as ->.
      rewrite N.eqb_refl in Hne. discriminate.
    + intros (j & Hj). destruct (N.eq_dec j i) as [->|Hji]; [rewrite hput_same in Hj; discriminate|].
      rewrite hput_other in Hj by auto. split; [eauto|]. destruct (N.eqb_spec fd n) as [->|]; [|reflexivity].
      exfalso. apply Hji. eapply H4; eauto.
  - intros j k fd Hj Hk.
    destruct (N.eq_dec j i) as [->|Hji]; [rewrite hput_same in Hj; discriminate|].
    destruct (N.eq_dec k i) as [->|Hki]; [rewrite hput_same in Hk; discriminate|].
    rewrite hput_other in Hj, Hk by auto. eauto.
Qed.

(** A descriptor goes over from one object to another. *)
Lemma hand_over s i j fd : hinv s -> i <> j -> (forall n, hs_obj s i <> Some (Some n)) -> hs_obj s j = Some fd ->
  hinv (set_obj (set_obj s i (Some fd)) j (Some None)).
Proof.
  intros [H1 H2 H3 H4] Hij Hi Hj.
  assert (L : forall k n, hput (hput (hs_obj s) i (Some fd)) j (Some None) k = Some (Some n) ->
    k <> j /\ (k = i /\ fd = Some n \/ k <> i /\ hs_obj s k = Some (Some n))).
  { intros k n. destruct (N.eq_dec k j) as [->|Hk]; [rewrite hput_same; discriminate|]. rewrite hput_other by auto.
    destruct (N.eq_dec k i) as [->|Hki]; [rewrite hput_same|rewrite hput_other by auto]; intros E; split; auto.
    left. split; congruence. }
  constructor; cbn [set_obj hs_bad hs_open hs_obj]; auto.
  - intros n. rewrite H3. split; intros (k & Hk).
    + destruct (N.eq_dec k j) as [->|Hkj].
      * exists i. rewrite hput_other by auto. rewrite hput_same. congruence.
      * exists k. rewrite hput_other by auto. rewrite hput_other; auto. intros ->. exact (Hi _ Hk).
    + destruct (L _ _ Hk) as [_ [[-> ->]|[_ X]]]; eauto.
  - intros k l n Hk Hl. destruct (L _ _ Hk) as [Hkj [[-> E1]|[Hki X]]], (L _ _ Hl) as [Hlj [[-> E2]|[Hli Y]]]; auto.
    + exfalso. apply Hlj. apply (H4 l j n); congruence.
    + exfalso. apply Hkj. apply (H4 k j n); congruence.
    + eauto.
Qed.

Lemma hdo_inv px o s s' ec : hinv s -> hdo px o s = Some (HOk s' ec) -> hinv s'.
Proof.
  intros Hi. destruct o as [i|i|i j|i j|i|i r]; cbn [hdo].
  - destruct (hs_obj s i) as [fd|] eqn:E; [discriminate|]. intros X. injection X as <- _.
    apply put_empty; auto; [rewrite E|]; discriminate.
  - destruct (hs_obj s i) as [fd|] eqn:E; [|discriminate]. intros X. injection X as <- _.
    destruct (hclose_inv s i fd Hi E) as (H1 & H2 & _). apply put_empty; auto; [rewrite H2|]; discriminate.
  - destruct (hs_obj s i) as [d|] eqn:E; [discriminate|]. destruct (hs_obj s j) as [fd|] eqn:Ej; [|discriminate].
    intros X. injection X as <- _. apply hand_over; auto; [congruence|]. rewrite E. discriminate.
  - destruct (hs_obj s i) as [d|] eqn:E; [|discriminate]. destruct (hs_obj s j) as [fd|] eqn:Ej; [|discriminate].
    destruct (N.eqb_spec i j) as [Hij|Hij]; intros X; injection X as <- _; auto.
    destruct (hclose_inv s i d Hi E) as (H1 & H2 & H3). apply hand_over; auto; [rewrite H2; discriminate|].
    rewrite H3 by auto. exact Ej.
  - destruct (hs_obj s i) as [fd|] eqn:E; [|discriminate]. intros X. injection X as <- _.
    exact (proj1 (hclose_inv s i fd Hi E)).
  - destruct (hs_obj s i) as [[fd|]|] eqn:E; try discriminate. destruct r as [ev|fd adv]; cbn [hopen].
    + intros X. injection X as <- _. apply put_empty; [|cbn [hs_obj]; rewrite E; discriminate|discriminate].
      destruct Hi. constructor; auto.
    + destruct (existsb (N.eqb fd) (hs_open s)) eqn:Em; [discriminate|]. intros X. injection X as <- _.
      assert (Hn : ~ In fd (hs_open s)) by (intros Y; apply mem_in in Y; congruence).
      destruct Hi as [H1 H2 H3 H4]. constructor; cbn [set_obj hs_open hs_obj hs_bad]; auto.
      * constructor; auto.
      * intros n. cbn [In]. rewrite H3. split.
        -- intros [<-|(k & Hk)]; [exists i; apply hput_same|]. exists k. rewrite hput_other; auto. intros ->. congruence.
        -- intros (k & Hk). destruct (N.eq_dec k i) as [->|Hki]; [rewrite hput_same in Hk; left; congruence|].
           rewrite hput_other in Hk by auto. eauto.
      * intros k l n Hk Hl.
        destruct (N.eq_dec k i) as [->|Hki], (N.eq_dec l i) as [->|Hli]; auto;
          rewrite ?hput_same in *; rewrite ?hput_other in * by auto.
        -- exfalso. injection Hk as <-. apply Hn, H3. eauto.
        -- exfalso. injection Hl as <-. apply Hn, H3. eauto.
        -- eauto.
Qed.

Lemma hdos_inv px l : forall s s' ec, hinv s -> hdos px l s = Some (HOk s' ec) -> hinv s'.
Proof.
  induction l as [|o l IH]; intros s s' ec Hi; cbn [hdos].
  - intros E. injection E as <- _. exact Hi.
  - destruct (hdo px o s) as [[s1 ec1|]|] eqn:E; try discriminate. apply IH. eapply hdo_inv; eauto.
Qed.
Lemma handles_inv px l s ec : handles px l = Some (HOk s ec) -> hinv s.
Proof.
  apply hdos_inv. constructor; cbn; auto; [constructor| |discriminate].
  intros fd. split; [intros []|]. intros (i & E). discriminate.
Qed.
