(** Lists of stores. *)
From Verif Require Import Model.Bytes Model.Context SpecContext Proofs.BytesFacts.

Lemma upd_same {A} (f : N -> A) x a : upd f x a x = a.
Proof. unfold upd. rewrite N.eqb_refl. auto. Qed.
Lemma upd_other {A} (f : N -> A) x a y : y <> x -> upd f x a y = f y.
Proof. unfold upd. intros H. destruct (N.eqb_spec y x); [contradiction|auto]. Qed.

Lemma NoDup_snoc {A} (xs : list A) x : NoDup xs -> ~ In x xs -> NoDup (xs ++ [x]).
Proof.
  intros H. induction H as [|y ys Hy H IH]; intros Hx; simpl; [constructor; [tauto|constructor]|].
  constructor; [|apply IH; simpl in Hx; tauto]. rewrite in_app_iff. simpl in *. intuition.
Qed.

(** Parts of lists, with what comes before and after. *)
Fixpoint lseg (h : heap) (p : option N) (xs : list N) (n : option N) : Prop :=
  match xs with
  | [] => True
  | x :: xs' => pv (h x) = p /\ nx (h x) = match xs' with [] => n | y :: _ => Some y end /\ lseg h (Some x) xs' n
  end.
Definition first_or (xs : list N) (n : option N) : option N := match xs with [] => n | y :: _ => Some y end.
Fixpoint last_or (p : option N) (xs : list N) : option N :=
  match xs with [] => p | x :: xs' => last_or (Some x) xs' end.

Lemma linked_lseg h xs : forall p, linked h p xs <-> lseg h p xs None.
Proof.
  induction xs as [|x xs IH]; intros p; simpl; [tauto|]. rewrite IH. destruct xs; tauto.
Qed.
Lemma last_or_snoc xs x : forall p, last_or p (xs ++ [x]) = Some x.
Proof. induction xs; intros p; simpl; auto. Qed.
Lemma last_or_app a b : forall p, last_or p (a ++ b) = last_or (last_or p a) b.
Proof. induction a; intros p; simpl; auto. Qed.
Lemma last_or_rev xs : hd_error (rev xs) = last_or None xs.
Proof.
  destruct xs as [|x xs] using rev_ind; [reflexivity|].
  rewrite rev_app_distr, last_or_snoc. reflexivity.
Qed.
Lemma last_or_In xs : forall p y, last_or p xs = Some y -> In y xs \/ (xs = [] /\ p = Some y).
Proof.
  induction xs as [|x xs IH]; intros p y H; simpl in *; auto.
  apply IH in H as [H|[-> H]]; auto. left. left. congruence.
Qed.

Lemma lseg_app h a : forall p b n,
  lseg h p (a ++ b) n <-> lseg h p a (first_or b n) /\ lseg h (last_or p a) b n.
Proof.
  induction a as [|x a IH]; intros p b n; simpl; [tauto|]. rewrite IH.
  destruct a as [|y a]; simpl; [|tauto]. destruct b; simpl; tauto.
Qed.

(** Only the links of the stores in it matter. *)
Lemma lseg_eq h h' xs n : forall p,
  (forall x, In x xs -> nx (h' x) = nx (h x) /\ pv (h' x) = pv (h x)) -> lseg h p xs n -> lseg h' p xs n.
Proof.
  induction xs as [|x xs IH]; intros p He H; [exact I|]. simpl in H. destruct H as (A & B & C).
  destruct (He x (or_introl eq_refl)) as [E1 E2]. simpl. rewrite E1, E2. split; auto. split; auto.
  apply IH; auto. intros y Hy. apply He. right. auto.
Qed.

(** Changing the links at the ends. *)
Lemma lseg_set_nx h p a x n n' : ~ In x a -> lseg h p (a ++ [x]) n -> lseg (set_nx h x n') p (a ++ [x]) n'.
Proof.
  intros Hx H. apply lseg_app in H as [H1 H2]. simpl in H2. destruct H2 as (A & B & _).
  apply lseg_app. split.
  - simpl in *. eapply lseg_eq; [|exact H1]. intros y Hy. unfold set_nx.
    rewrite upd_other; auto. intros ->. contradiction.
  - simpl. unfold set_nx. rewrite upd_same. simpl. auto.
Qed.
Lemma lseg_set_pv h p p' x b n : ~ In x b -> lseg h p (x :: b) n -> lseg (set_pv h x p') p' (x :: b) n.
Proof.
  intros Hx H. simpl in *. destruct H as (A & B & C). unfold set_pv. rewrite upd_same. simpl.
  split; auto. split; auto. eapply lseg_eq; [|exact C]. intros y Hy. rewrite upd_other; auto.
  intros ->. contradiction.
Qed.
Lemma lseg_frame_nx h p a n x v : ~ In x a -> lseg h p a n -> lseg (set_nx h x v) p a n.
Proof.
  intros Hx. apply lseg_eq. intros y Hy. unfold set_nx. rewrite upd_other; auto. intros ->. contradiction.
Qed.
Lemma lseg_frame_pv h p a n x v : ~ In x a -> lseg h p a n -> lseg (set_pv h x v) p a n.
Proof.
  intros Hx. apply lseg_eq. intros y Hy. unfold set_pv. rewrite upd_other; auto. intros ->. contradiction.
Qed.
Lemma lseg_frame_stt h p a n x v : lseg h p a n -> lseg (set_stt h x v) p a n.
Proof.
  apply lseg_eq. intros y Hy. unfold set_stt. destruct (N.eq_dec y x) as [->|].
  - rewrite upd_same. auto.
  - rewrite upd_other; auto.
Qed.

(** The lists of the model in these terms. *)
Definition rep (h : heap) (l : dlist) (xs : list N) : Prop :=
  dl_head l = first_or xs None /\ dl_tail l = last_or None xs /\ lseg h None xs None /\ NoDup xs.
Lemma rep_holds h l xs : rep h l xs <-> holds_list h l xs.
Proof.
  unfold rep, holds_list. rewrite linked_lseg, last_or_rev. destruct xs; simpl; tauto.
Qed.

(** Nothing but the links of the stores in [xs] changes. *)
Definition only (xs : list N) (h h' : heap) : Prop :=
  (forall y, ~ In y xs -> h' y = h y) /\ (forall y, stt (h' y) = stt (h y)).
Lemma only_refl xs h : only xs h h. Proof. split; auto. Qed.
Lemma only_trans xs h1 h2 h3 : only xs h1 h2 -> only xs h2 h3 -> only xs h1 h3.
Proof.
  intros [A B] [C D]. split; intros y.
  - intros Hy. rewrite C; auto.
  - rewrite D. auto.
Qed.
Lemma only_nx xs h x v : In x xs -> only xs h (set_nx h x v).
Proof.
  intros Hx. unfold set_nx. split; intros y.
  - intros Hy. rewrite upd_other; auto. intros ->. contradiction.
  - destruct (N.eq_dec y x) as [->|]; [rewrite upd_same|rewrite upd_other]; auto.
Qed.
Lemma only_pv xs h x v : In x xs -> only xs h (set_pv h x v).
Proof.
  intros Hx. unfold set_pv. split; intros y.
  - intros Hy. rewrite upd_other; auto. intros ->. contradiction.
  - destruct (N.eq_dec y x) as [->|]; [rewrite upd_same|rewrite upd_other]; auto.
Qed.
Lemma rep_only xs ys h h' l : only xs h h' -> (forall x, In x xs -> ~ In x ys) -> rep h l ys -> rep h' l ys.
Proof.
  intros [A _] Hd (B & C & D & E). split; auto. split; auto. split; auto.
  eapply lseg_eq; [|exact D]. intros y Hy. rewrite A; auto. intros Hx. exact (Hd y Hx Hy).
Qed.
Lemma rep_stt h l xs x s : rep h l xs -> rep (set_stt h x s) l xs.
Proof. intros (A & B & C & D). split; auto. split; auto. split; auto. apply lseg_frame_stt. auto. Qed.

Lemma push_back_rep h l xs x h' l' : rep h l xs -> ~ In x xs -> push_back h l x = (h', l') ->
  rep h' l' (xs ++ [x]) /\ only (xs ++ [x]) h h'.
Proof.
  intros (A & B & C & D) Hx H. unfold push_back in H. rewrite B in H. injection H as <- <-.
  destruct xs as [|y0 ys0] using rev_ind.
  - simpl. rewrite A. simpl. split.
    + split; [reflexivity|]. split; [reflexivity|]. split; [|constructor; [tauto|constructor]].
      simpl. unfold set_pv, set_nx. rewrite upd_same. simpl. rewrite upd_same. auto.
    + eapply only_trans; [apply only_nx|apply only_pv]; simpl; auto.
  - clear IHys0. rewrite last_or_snoc. set (xs := ys0 ++ [y0]) in *. split.
    + split; [|split; [|split]].
      * simpl. rewrite A. unfold xs. destruct ys0; reflexivity.
      * simpl. rewrite last_or_snoc. reflexivity.
      * assert (Hne : x <> y0). { intros ->. apply Hx. unfold xs. apply in_or_app. simpl. auto. }
        apply lseg_app. split.
        -- cbn [first_or]. unfold xs. apply lseg_set_nx with (n := None).
           { apply NoDup_remove_2 in D. rewrite app_nil_r in D. exact D. }
           apply lseg_frame_pv; [exact Hx|]. apply lseg_frame_nx; [exact Hx|]. exact C.
        -- unfold xs. rewrite last_or_snoc. cbn [lseg]. unfold set_nx, set_pv.
           rewrite upd_other by auto. rewrite !upd_same. simpl. auto.
      * apply NoDup_snoc; auto.
    + eapply only_trans; [eapply only_trans; [apply only_nx|apply only_pv]|apply only_nx];
        rewrite ?in_app_iff; unfold xs; rewrite ?in_app_iff; simpl; auto.
Qed.

Lemma dl_erase_rep h l a x b h' l' : rep h l (a ++ x :: b) -> dl_erase h l x = (h', l') ->
  rep h' l' (a ++ b) /\ only (a ++ x :: b) h h'.
Proof.
  intros (A & B & C & D) H.
  assert (Dxa : ~ In x a /\ ~ In x b).
  { apply NoDup_remove_2 in D. rewrite in_app_iff in D. tauto. }
  destruct Dxa as [Dxa Dxb].
  assert (Dab : forall y, In y a -> ~ In y b).
  { intros y Hy Hy'. apply in_split in Hy' as (b1 & b2 & ->).
    replace (a ++ x :: b1 ++ y :: b2) with ((a ++ x :: b1) ++ y :: b2) in D by (rewrite <- app_assoc; reflexivity).
    apply NoDup_remove_2 in D. apply D. rewrite !in_app_iff. auto. }
  apply lseg_app in C as [C1 C2]. cbn [first_or] in C1. simpl in C2. destruct C2 as (C2 & C3 & C4).
  unfold dl_erase in H.
  assert (Hn : nx (h x) = first_or b None) by (rewrite C3; destruct b; auto).
  rewrite Hn in H.
  (* the successor *)
  set (hl1 := match first_or b None with
              | Some n => (set_pv h n (pv (h x)), l)
              | None => (h, DList (dl_head l) (pv (h x))) end) in H.
  assert (S1 : only (a ++ x :: b) h (fst hl1) /\ dl_head (snd hl1) = dl_head l /\
               dl_tail (snd hl1) = last_or None (a ++ b) /\
               lseg (fst hl1) (last_or None a) b None /\ lseg (fst hl1) None a (Some x) /\
               nx (fst hl1 x) = first_or b None /\ pv (fst hl1 x) = last_or None a).
  { unfold hl1. destruct b as [|y b].
    - cbn [first_or fst snd head dl_tail lseg]. rewrite app_nil_r, C2.
      repeat split; auto; apply only_refl.
    - cbn [first_or fst snd]. split; [apply only_pv; rewrite in_app_iff; simpl; auto|].
      split; [reflexivity|]. split; [rewrite B, !last_or_app; reflexivity|].
      assert (~ In y b).
      { apply NoDup_remove_1 in D. apply NoDup_remove_2 in D. rewrite in_app_iff in D. tauto. }
      split; [rewrite C2; eapply lseg_set_pv; eauto|]. split.
      { apply lseg_frame_pv; auto. intros Hy. apply (Dab y Hy). left. reflexivity. }
      assert (x <> y) by (intros ->; apply Dxb; left; reflexivity).
      unfold set_pv. rewrite upd_other by auto. auto. }
  clearbody hl1. destruct hl1 as [h1 l1]. cbn [fst snd] in S1.
  destruct S1 as (O1 & E1 & E2 & E3 & E4 & E5 & E6). rewrite E5, E6 in H.
  set (hl2 := match last_or None a with
              | Some p => (set_nx h1 p (first_or b None), l1)
              | None => (h1, DList (first_or b None) (dl_tail l1)) end) in H.
  assert (S2 : only (a ++ x :: b) h1 (fst hl2) /\ dl_head (snd hl2) = first_or (a ++ b) None /\
               dl_tail (snd hl2) = last_or None (a ++ b) /\
               lseg (fst hl2) (last_or None a) b None /\ lseg (fst hl2) None a (first_or b None)).
  { unfold hl2. destruct a as [|z a0] using rev_ind.
    - cbn [last_or fst snd dl_head dl_tail app lseg]. repeat split; auto; apply only_refl.
    - clear IHa0. rewrite last_or_snoc in *. cbn [fst snd].
      split; [apply only_nx; rewrite !in_app_iff; simpl; auto|].
      split. { rewrite E1, A. destruct a0; reflexivity. }
      split; [exact E2|].
      assert (~ In z b) by (apply Dab; rewrite in_app_iff; simpl; auto).
      split; [apply lseg_frame_nx; auto|].
      eapply lseg_set_nx; [|exact E4].
      rewrite <- !app_assoc in D. simpl in D. apply NoDup_remove_2 in D. rewrite in_app_iff in D. tauto. }
  clearbody hl2. destruct hl2 as [h2 l2]. cbn [fst snd] in S2. destruct S2 as (O2 & F1 & F2 & F3 & F4).
  injection H as <- <-. split.
  - split; [exact F1|]. split; [exact F2|]. split; [|apply NoDup_remove_1 in D; exact D].
    apply lseg_frame_pv; [rewrite in_app_iff; tauto|]. apply lseg_frame_nx; [rewrite in_app_iff; tauto|].
    apply lseg_app. split; auto.
  - eapply only_trans; [exact O1|]. eapply only_trans; [exact O2|].
    eapply only_trans; [apply only_nx|apply only_pv]; rewrite in_app_iff; simpl; auto.
Qed.

Lemma splice_rep h l r xs ys h' l' r' : rep h l xs -> rep h r ys -> (forall x, In x xs -> ~ In x ys) ->
  splice h l r = (h', l', r') -> rep h' l' (xs ++ ys) /\ rep h' r' [] /\ only (xs ++ ys) h h'.
Proof.
  intros (A & B & C & D) (A' & B' & C' & D') Hd H. unfold splice in H.
  assert (R0 : forall h, rep h dnil []) by (intros; repeat split; constructor).
  destruct ys as [|y ys].
  - simpl in A'. rewrite A' in H. injection H as <- <- <-. rewrite app_nil_r.
    split; [repeat split; auto|]. split; [|apply only_refl]. destruct r as [rh rt]. simpl in *. subst. apply R0.
  - simpl in A'. rewrite A' in H. destruct xs as [|x0 xs0] using rev_ind.
    + simpl in A. rewrite A in H. injection H as <- <- <-. simpl. split; [split; auto|]. split; auto. apply only_refl.
    + clear IHxs0. rewrite last_or_snoc in B. set (xs := xs0 ++ [x0]) in *.
      assert (Hh : exists z, dl_head l = Some z) by (rewrite A; unfold xs; destruct xs0; simpl; eauto).
      destruct Hh as (z & Hz). rewrite Hz in H. rewrite B in H. injection H as <- <- <-.
      assert (Hy : ~ In y xs). { intros X. apply (Hd y X). left. reflexivity. }
      assert (Hx : ~ In x0 (y :: ys)). { apply Hd. unfold xs. rewrite in_app_iff. simpl. auto. }
      split; [|split; [apply R0|]].
      * split; [|split; [|split]].
        -- cbn [dl_head]. rewrite <- Hz, A. unfold xs. destruct xs0; reflexivity.
        -- cbn [dl_tail]. rewrite B', last_or_app. unfold xs. rewrite last_or_snoc. reflexivity.
        -- apply lseg_app. split.
           ++ cbn [first_or]. unfold xs. apply lseg_set_nx with (n := None).
              { apply NoDup_remove_2 in D. rewrite app_nil_r in D. exact D. }
              apply lseg_frame_pv; auto.
           ++ apply lseg_frame_nx; auto. unfold xs. rewrite last_or_snoc.
              eapply lseg_set_pv; [inversion D'; auto|]. exact C'.
        -- cbn. clear - D D' Hd. induction xs as [|w xs IH]; [exact D'|]. simpl. inversion D; subst. constructor.
           ++ rewrite in_app_iff. intros [X|X]; [contradiction|]. apply (Hd w); [left|]; auto.
           ++ apply IH; auto. intros v Hv. apply Hd. right. exact Hv.
      * eapply only_trans; [apply only_pv|apply only_nx]; unfold xs; rewrite !in_app_iff; simpl; auto.
Qed.

(** Marking. *)
Lemma mark_rep xs : forall fuel h p h', lseg h p xs None -> mark fuel h (first_or xs None) = Some h' ->
  forall y, nx (h' y) = nx (h y) /\ pv (h' y) = pv (h y) /\
    (In y xs -> stt (h' y) = SFlushing) /\ (~ In y xs -> h' y = h y).
Proof.
  induction xs as [|x xs IH]; intros fuel h p h' Hl H y.
  - simpl in H. destruct fuel; injection H as <-; simpl; tauto.
  - destruct fuel as [|fuel]; [discriminate H|]. cbn [first_or mark] in H. simpl in Hl.
    destruct Hl as (A & B & C).
    assert (B' : nx (h x) = first_or xs None) by (rewrite B; destruct xs; auto). rewrite B' in H.
    destruct (IH fuel (set_stt h x SFlushing) (Some x) h' (lseg_frame_stt _ _ _ _ _ _ C) H y) as (E1 & E2 & E3 & E4).
    rewrite E1, E2. unfold set_stt in *. destruct (N.eq_dec y x) as [->|Hne].
    + rewrite upd_same in *. simpl. split; auto. split; auto. split; [|tauto]. intros _.
      destruct (in_dec N.eq_dec x xs) as [Hi|Hi]; [auto|]. rewrite E4 by auto. reflexivity.
    + rewrite upd_other in * by auto. split; auto. split; auto. simpl. split.
      * intros [E|Hi]; [congruence|auto].
      * intros Hi. apply E4. tauto.
Qed.
Lemma mark_some xs : forall fuel h p, (length xs <= fuel)%nat -> lseg h p xs None ->
  exists h', mark fuel h (first_or xs None) = Some h'.
Proof.
  induction xs as [|x xs IH]; intros fuel h p Hf Hl.
  - exists h. destruct fuel; reflexivity.
  - destruct fuel as [|fuel]; [simpl in Hf; lia|]. cbn [first_or mark]. simpl in Hl. destruct Hl as (A & B & C).
    assert (B' : nx (h x) = first_or xs None) by (rewrite B; destruct xs; auto). rewrite B'.
    apply (IH fuel (set_stt h x SFlushing) (Some x)); [simpl in Hf; lia|]. apply lseg_frame_stt. exact C.
Qed.
