(** Invariant of the context. *)
From Verif Require Import Model.Bytes Model.Context SpecContext Proofs.BytesFacts Proofs.ContextFacts.

Record linv (h : heap) (w f : dlist) (W F : list N) : Prop := LInv {
  li_w : rep h w W;
  li_f : rep h f F;
  li_sw : forall x, stt (h x) = SWaiting <-> In x W;
  li_sf : forall x, stt (h x) = SFlushing <-> In x F }.

Lemma li_dis h w f W F : linv h w f W F -> forall x, In x W -> ~ In x F.
Proof. intros [A B C D] x H1 H2. apply C in H1. apply D in H2. congruence. Qed.

Definition off_list (s : sstate) : Prop := s = SNone \/ s = SIntermediate.
Lemma off_notin h w f W F x : linv h w f W F -> off_list (stt (h x)) -> ~ In x W /\ ~ In x F.
Proof.
  intros [A B C D] [E|E]; split; intros H; first [apply C in H|apply D in H]; congruence.
Qed.

Lemma stt_upd h x s y : stt (set_stt h x s y) = if y =? x then s else stt (h y).
Proof. unfold set_stt, upd. destruct (N.eqb_spec y x) as [->|]; auto. Qed.

Lemma linv_move fuel c c' W F :
  linv (c_heap c) (c_waiting c) (c_flushing c) W F -> move_all fuel c = Some c' ->
  exists h w f, c' = set_lists c h w f /\ linv h w f [] (F ++ W) /\
    (forall x, stt (h x) = match stt (c_heap c x) with SWaiting => SFlushing | s => s end) /\
    (forall x, off_list (stt (c_heap c x)) -> h x = c_heap c x).
Proof.
  intros L H. pose proof (li_dis _ _ _ _ _ L) as Hdis. destruct L as [A B C D]. unfold move_all in H.
  destruct A as (A1 & A2 & A3 & A4). rewrite A1 in H.
  destruct (mark fuel (c_heap c) (first_or W None)) as [h1|] eqn:Em; [|discriminate].
  pose proof (mark_rep W fuel (c_heap c) None h1 A3 Em) as M.
  destruct (splice h1 (c_flushing c) (c_waiting c)) as [[h2 f2] w2] eqn:Es. injection H as <-.
  exists h2, w2, f2. split; [reflexivity|].
  assert (RW : rep h1 (c_waiting c) W).
  { split; auto. split; auto. split; auto. eapply lseg_eq; [|exact A3]. intros y _. destruct (M y) as (X & Y & _). auto. }
  assert (RF : rep h1 (c_flushing c) F).
  { destruct B as (B1 & B2 & B3 & B4). split; auto. split; auto. split; auto.
    eapply lseg_eq; [|exact B3]. intros y _. destruct (M y) as (X & Y & _). auto. }
  destruct (splice_rep _ _ _ F W _ _ _ RF RW (fun x H1 H2 => Hdis x H2 H1) Es) as (R1 & R2 & O1 & O2).
  assert (St : forall x, stt (h2 x) = match stt (c_heap c x) with SWaiting => SFlushing | s => s end).
  { intros x. rewrite O2. destruct (M x) as (_ & _ & M1 & M2).
    destruct (in_dec N.eq_dec x W) as [Hi|Hi].
    - rewrite M1 by auto. rewrite (proj2 (C x) Hi). reflexivity.
    - rewrite M2 by auto. destruct (stt (c_heap c x)) eqn:E; auto. apply C in E. contradiction. }
  split; [|split; [exact St|]].
  - constructor; auto; intros x; rewrite St.
    + split; [|intros []]. destruct (stt (c_heap c x)) eqn:E; discriminate.
    + rewrite in_app_iff. split.
      * destruct (stt (c_heap c x)) eqn:E; try discriminate; intros _; [right; apply C; auto|left; apply D; auto].
      * intros [Hi|Hi]; [apply D in Hi|apply C in Hi]; rewrite Hi; reflexivity.
  - intros x Hx. assert (N1 : ~ In x W) by (intros Hi; apply C in Hi; destruct Hx; congruence).
    assert (N2 : ~ In x F) by (intros Hi; apply D in Hi; destruct Hx; congruence).
    rewrite O1 by (rewrite in_app_iff; tauto). apply M. exact N1.
Qed.

Lemma linv_take h w f W F x h' l :
  linv h w f W F -> dl_head f = Some x -> dl_erase (set_stt h x SIntermediate) f x = (h', l) ->
  exists F', F = x :: F' /\ linv h' w l W F' /\
    (forall y, stt (h' y) = if y =? x then SIntermediate else stt (h y)) /\
    (forall y, y <> x -> off_list (stt (h y)) -> h' y = h y).
Proof.
  intros L Hh He. pose proof (li_dis _ _ _ _ _ L) as Hdis. destruct L as [A B C D].
  assert (HF : exists F', F = x :: F').
  { destruct B as (B1 & _). rewrite B1 in Hh. destruct F as [|y F']; [discriminate|]. simpl in Hh. exists F'. congruence. }
  destruct HF as (F' & ->). exists F'. split; auto.
  destruct (dl_erase_rep (set_stt h x SIntermediate) f [] x F' h' l (rep_stt _ _ _ _ _ B) He) as (R & O1 & O2).
  simpl in R, O1.
  assert (St : forall y, stt (h' y) = if y =? x then SIntermediate else stt (h y)) by (intros y; rewrite O2; apply stt_upd).
  assert (Hnd : ~ In x F') by (destruct B as (_ & _ & _ & B4); inversion B4; auto).
  split; [|split; [exact St|]].
  - constructor; auto.
    + eapply (rep_only (x :: F') W); [split; [exact O1|exact O2]| |apply rep_stt; exact A].
      intros y Hy Hw. exact (Hdis y Hw Hy).
    + intros y. rewrite St. destruct (N.eqb_spec y x) as [->|]; [|apply C].
      split; [discriminate|]. intros Hw. exfalso. apply (Hdis x Hw). left. reflexivity.
    + intros y. rewrite St. destruct (N.eqb_spec y x) as [->|Hne].
      * split; [discriminate|]. intros Hw. contradiction.
      * rewrite D. simpl. split; [intros [E|E]; [congruence|auto]|auto].
  - intros y Hne Hy. rewrite O1.
    + unfold set_stt. apply upd_other. auto.
    + intros [E|Hi]; [congruence|]. assert (Hi' : In y (x :: F')) by (right; auto). apply D in Hi'. destruct Hy; congruence.
Qed.

Lemma linv_put h w f W F x h' l :
  linv h w f W F -> off_list (stt (h x)) -> push_back (set_stt h x SWaiting) w x = (h', l) ->
  linv h' l f (W ++ [x]) F /\
    (forall y, stt (h' y) = if y =? x then SWaiting else stt (h y)) /\
    (forall y, y <> x -> off_list (stt (h y)) -> h' y = h y).
Proof.
  intros L Hx Hp. destruct (off_notin _ _ _ _ _ _ L Hx) as [N1 N2].
  pose proof (li_dis _ _ _ _ _ L) as Hdis. destruct L as [A B C D].
  destruct (push_back_rep _ _ W x h' l (rep_stt _ _ _ x SWaiting A) N1 Hp) as (R & O1 & O2).
  assert (St : forall y, stt (h' y) = if y =? x then SWaiting else stt (h y)) by (intros y; rewrite O2; apply stt_upd).
  split; [|split; [exact St|]].
  - constructor; auto.
    + eapply (rep_only (W ++ [x]) F); [split; [exact O1|exact O2]| |apply rep_stt; exact B].
      intros y Hy Hf. apply in_app_iff in Hy as [Hy|[<-|[]]]; [exact (Hdis y Hy Hf)|contradiction].
    + intros y. rewrite St, in_app_iff. destruct (N.eqb_spec y x) as [->|Hne].
      * split; auto. intros _. right. left. auto.
      * rewrite C. split; [auto|]. intros [E|[E|[]]]; [auto|congruence].
    + intros y. rewrite St. destruct (N.eqb_spec y x) as [->|]; [|apply D].
      split; [discriminate|intros; contradiction].
  - intros y Hne Hy. rewrite O1; [unfold set_stt; apply upd_other; auto|].
    rewrite in_app_iff. intros [Hi|[E|[]]]; [|congruence]. apply C in Hi. destruct Hy; congruence.
Qed.

Lemma linv_unlink c x W F :
  linv (c_heap c) (c_waiting c) (c_flushing c) W F -> stt (c_heap c x) <> SIntermediate ->
  exists h w f W' F', linv h w f W' F' /\
    (unlink c x = set_lists c h w f \/ unlink c x = wakes (set_lists c h w f) wake_w) /\
    (forall y, stt (h y) = if y =? x then SNone else stt (c_heap c y)) /\
    (forall y, y <> x -> off_list (stt (c_heap c y)) -> h y = c_heap c y) /\
    (empty (c_flushing c) = true -> empty f = true).
Proof.
  intros L Hx. pose proof (li_dis _ _ _ _ _ L) as Hdis. destruct L as [A B C D]. unfold unlink.
  destruct (stt (c_heap c x)) eqn:E.
  - destruct (dl_erase (c_heap c) (c_waiting c) x) as [h1 l1] eqn:Ee.
    apply C in E. apply in_split in E as (a & b & ->).
    destruct (dl_erase_rep _ _ a x b h1 l1 A Ee) as (R & O1 & O2).
    assert (Hnd : ~ In x (a ++ b)) by (destruct A as (_ & _ & _ & A4); apply NoDup_remove_2 in A4; auto).
    exists (set_stt h1 x SNone), l1, (c_flushing c), (a ++ b), F.
    assert (St : forall y, stt (set_stt h1 x SNone y) = if y =? x then SNone else stt (c_heap c y)).
    { intros y. rewrite stt_upd, O2. auto. }
    split; [|split; [right; reflexivity|split; [exact St|split; [|auto]]]].
    + constructor.
      * apply rep_stt. exact R.
      * apply rep_stt. eapply (rep_only (a ++ x :: b) F); [split; eauto| |exact B]. exact Hdis.
      * intros y. rewrite St. destruct (N.eqb_spec y x) as [->|Hne].
        -- split; [discriminate|contradiction].
        -- rewrite C, !in_app_iff. simpl. intuition congruence.
      * intros y. rewrite St. destruct (N.eqb_spec y x) as [->|Hne]; [|apply D].
        split; [discriminate|]. intros Hf. exfalso. eapply Hdis; [|exact Hf]. rewrite in_app_iff. simpl. auto.
    + intros y Hne Hy. unfold set_stt. rewrite upd_other by auto. apply O1. intros Hi. apply C in Hi. destruct Hy; congruence.
  - destruct (dl_erase (c_heap c) (c_flushing c) x) as [h1 l1] eqn:Ee.
    apply D in E. apply in_split in E as (a & b & ->).
    destruct (dl_erase_rep _ _ a x b h1 l1 B Ee) as (R & O1 & O2).
    assert (Hnd : ~ In x (a ++ b)) by (destruct B as (_ & _ & _ & B4); apply NoDup_remove_2 in B4; auto).
    exists (set_stt h1 x SNone), (c_waiting c), l1, W, (a ++ b).
    assert (St : forall y, stt (set_stt h1 x SNone y) = if y =? x then SNone else stt (c_heap c y)).
    { intros y. rewrite stt_upd, O2. auto. }
    split; [|split; [left; reflexivity|split; [exact St|split]]].
    + constructor.
      * apply rep_stt. eapply (rep_only (a ++ x :: b) W); [split; eauto| |exact A].
        intros y Hy Hw. exact (Hdis y Hw Hy).
      * apply rep_stt. exact R.
      * intros y. rewrite St. destruct (N.eqb_spec y x) as [->|Hne]; [|apply C].
        split; [discriminate|]. intros Hw. exfalso. eapply Hdis; [exact Hw|]. rewrite in_app_iff. simpl. auto.
      * intros y. rewrite St. destruct (N.eqb_spec y x) as [->|Hne].
        -- split; [discriminate|contradiction].
        -- rewrite D, !in_app_iff. simpl. intuition congruence.
    + intros y Hne Hy. unfold set_stt. rewrite upd_other by auto. apply O1. intros Hi. apply D in Hi. destruct Hy; congruence.
    + unfold empty. destruct B as (B1 & _). rewrite B1. destruct a; discriminate.
  - contradiction.
  - exists (c_heap c), (c_waiting c), (c_flushing c), W, F. split; [constructor; auto|].
    split; [left; destruct c; reflexivity|]. split; [|split; auto].
    intros y. destruct (N.eqb_spec y x) as [->|]; auto.
Qed.

(** ** Threads *)
Definition busyof (s : tstate) : option N := match s with TBusy _ x => Some x | _ => None end.
Definition closeof (s : tstate) : option N := match s with TClose x | TWaitX x _ => Some x | _ => None end.
Definition callof (s : tstate) : option N := match s with TOpen x | TClose x | TWaitX x _ => Some x | _ => None end.
Definition running (s : tstate) : bool :=
  match s with
  | TTop _ | TWaitF _ _ | TLoop (Some _) | TBusy (Some _) _ | TLeave => true
  | _ => false
  end.

Lemma in_call_of s x : in_call s x <-> callof s = Some x.
Proof.
  unfold in_call. destruct s; simpl; split; intros H; try (intuition discriminate);
    try (destruct H as [H|[H|(b & H)]]; discriminate || congruence); injection H as <-; eauto.
Qed.

(** The numbered threads are those in run(). *)
Definition counted (th : N -> tstate) (n : N) : Prop :=
  exists R, NoDup R /\ (forall t, In t R <-> running (th t) = true) /\ n = blen R.

Lemma counted_eq th th' n : (forall t, running (th' t) = running (th t)) -> counted th n -> counted th' n.
Proof. intros H (R & A & B & C). exists R. split; auto. split; auto. intros t. rewrite H. auto. Qed.
Lemma counted_in th th' n t : running (th t) = false -> running (th' t) = true ->
  (forall u, u <> t -> running (th' u) = running (th u)) -> counted th n -> counted th' (n + 1).
Proof.
  intros H1 H2 H (R & A & B & C). exists (t :: R). split; [|split].
  - constructor; auto. rewrite B. congruence.
  - intros u. simpl. destruct (N.eq_dec u t) as [->|Hne]; [tauto|]. rewrite H by auto. rewrite <- B.
    split; [intros [E|E]; [congruence|auto]|auto].
  - rewrite blen_cons. lia.
Qed.
Lemma counted_out th th' n t : running (th t) = true -> running (th' t) = false ->
  (forall u, u <> t -> running (th' u) = running (th u)) -> counted th n -> 1 <= n /\ counted th' (n - 1).
Proof.
  intros H1 H2 H (R & A & B & C). pose proof (proj2 (B t) H1) as Ht. apply in_split in Ht as (a & b & ->).
  rewrite blen_app, blen_cons in C. split; [lia|]. exists (a ++ b). split; [|split].
  - apply NoDup_remove_1 in A. auto.
  - intros u. destruct (N.eq_dec u t) as [->|Hne].
    + apply NoDup_remove_2 in A. split; [tauto|congruence].
    + rewrite H by auto. rewrite <- B, !in_app_iff. simpl. intuition congruence.
  - rewrite blen_app. lia.
Qed.
Lemma counted_0 th t : counted th 0 -> running (th t) = false.
Proof.
  intros (R & A & B & C). destruct (running (th t)) eqn:E; auto. apply B in E.
  destruct R as [|y R]; [destruct E|]. rewrite blen_cons in C. lia.
Qed.
Lemma counted_1 th t u n : counted th n -> n <= 1 -> running (th t) = true -> running (th u) = true -> t = u.
Proof.
  intros (R & A & B & C) Hn H1 H2. apply B in H1, H2.
  destruct R as [|y [|z R]]; [destruct H1| |rewrite !blen_cons in C; lia].
  destruct H1 as [<-|[]], H2 as [<-|[]]. auto.
Qed.

Record cinv (c : ctx) : Prop := CInv {
  ci_l : exists W F, linv (c_heap c) (c_waiting c) (c_flushing c) W F;
  ci_busy : forall x, stt (c_heap c x) = SIntermediate <-> exists t, busyof (c_th c t) = Some x;
  ci_one : forall t u x, busyof (c_th c t) = Some x -> busyof (c_th c u) = Some x -> t = u;
  ci_live : forall x, stt (c_heap c x) <> SNone <->
    c_open c x = true \/ exists t, closeof (c_th c t) = Some x;
  ci_call : forall t u x, callof (c_th c t) = Some x -> callof (c_th c u) = Some x -> t = u;
  ci_open : forall t x, callof (c_th c t) = Some x -> c_open c x = false;
  ci_x : forall t x, c_th c t = TWaitX x false -> stt (c_heap c x) = SIntermediate;
  ci_f : forall t, c_th c t = TWaitF false false -> empty (c_flushing c) = true /\ c_stop c = false;
  ci_s : forall t, c_th c t = TWaitS false -> 0 < c_num c;
  ci_n : counted (c_th c) (c_num c) }.

Lemma cinv0 : cinv ctx0.
Proof.
  constructor; simpl; try discriminate; auto.
  - exists [], []. constructor; try (intros x; split; [discriminate|intros []]); repeat split; constructor.
  - intros x. split; [discriminate|intros (t & H); discriminate].
  - intros x. split; [congruence|intros [H|(t & H)]; discriminate].
  - exists []. split; [constructor|]. split; [|reflexivity]. intros t. split; [intros []|discriminate].
Qed.

(** Steps that change neither the lists nor the stores a thread deals with. *)
Lemma cinv_plain c c' :
  cinv c -> c_heap c' = c_heap c -> c_waiting c' = c_waiting c -> c_flushing c' = c_flushing c ->
  c_open c' = c_open c ->
  (forall t, busyof (c_th c' t) = busyof (c_th c t) /\ closeof (c_th c' t) = closeof (c_th c t) /\
             callof (c_th c' t) = callof (c_th c t)) ->
  (forall t x, c_th c' t = TWaitX x false -> stt (c_heap c x) = SIntermediate) ->
  (forall t, c_th c' t = TWaitF false false -> empty (c_flushing c) = true /\ c_stop c' = false) ->
  (forall t, c_th c' t = TWaitS false -> 0 < c_num c') ->
  counted (c_th c') (c_num c') -> cinv c'.
Proof.
  intros [L B O Li Ca Op X F S Nu] E1 E2 E3 E4 Hv HX HF HS HN.
  constructor; rewrite ?E1, ?E2, ?E3, ?E4; auto.
  - intros x. rewrite B. split; intros (t & H); exists t; destruct (Hv t) as (V & _); congruence.
  - intros t u x H1 H2. destruct (Hv t) as (V1 & _), (Hv u) as (V2 & _). apply (O t u x); congruence.
  - intros x. rewrite Li. split; (intros [H|(t & H)]; [left; auto|right; exists t; destruct (Hv t) as (_ & V & _); congruence]).
  - intros t u x H1 H2. destruct (Hv t) as (_ & _ & V1), (Hv u) as (_ & _ & V2). apply (Ca t u x); congruence.
  - intros t x H. destruct (Hv t) as (_ & _ & V). apply (Op t x). congruence.
Qed.

(** Cases: thread [t] or another, which may have been woken. *)
Ltac thr t u := unfold goto, wakes, set_num, set_t, set_stop, set_open, set_lists, wake_f, wake_w; cbn [c_th c_heap c_waiting c_flushing c_num c_t c_stop c_open];
  destruct (N.eq_dec u t) as [->|?];
  [rewrite ?upd_same | rewrite ?upd_other by assumption].

Lemma goto_th c t s u : c_th (goto c t s) u = if u =? t then s else c_th c u.
Proof. reflexivity. Qed.

Lemma cinv_goto c t s s' : cinv c -> c_th c t = s ->
  busyof s' = busyof s -> closeof s' = closeof s -> callof s' = callof s -> running s' = running s ->
  (forall x, s' = TWaitX x false -> stt (c_heap c x) = SIntermediate) ->
  (s' = TWaitF false false -> empty (c_flushing c) = true /\ c_stop c = false) ->
  (s' = TWaitS false -> 0 < c_num c) -> cinv (goto c t s').
Proof.
  intros I Hs E1 E2 E3 E4 HX HF HS. apply (cinv_plain c); auto.
  - intros u. rewrite goto_th. destruct (N.eqb_spec u t) as [->|]; auto. rewrite Hs. auto.
  - intros u x. rewrite goto_th. destruct (N.eqb_spec u t) as [->|]; [auto|apply (ci_x c I)].
  - intros u. rewrite goto_th. destruct (N.eqb_spec u t) as [->|]; [auto|apply (ci_f c I)].
  - intros u. rewrite goto_th. destruct (N.eqb_spec u t) as [->|]; [auto|apply (ci_s c I)].
  - apply (counted_eq (c_th c)); [|apply (ci_n c I)]. intros u. rewrite goto_th.
    destruct (N.eqb_spec u t) as [->|]; auto. rewrite Hs. auto.
Qed.

(** Waking. *)
Lemma cinv_wake_f c : cinv c -> cinv (wakes c wake_f).
Proof.
  intros I. apply (cinv_plain c); auto; cbn [wakes c_th c_heap c_num c_stop c_flushing]; unfold wake_f.
  - intros u. destruct (c_th c u); auto.
  - intros u x. destruct (c_th c u) eqn:E; try discriminate. intros H. apply (ci_x c I u). congruence.
  - intros u. destruct (c_th c u) eqn:E; try discriminate.
  - intros u. destruct (c_th c u) eqn:E; try discriminate. intros H. apply (ci_s c I u). congruence.
  - apply (counted_eq (c_th c)); [|apply (ci_n c I)]. intros u. destruct (c_th c u); auto.
Qed.

Lemma cinv_move fuel c c' : cinv c -> move_all fuel c = Some c' ->
  (forall t, c_th c t = TWaitF false false -> empty (c_flushing c') = true) ->
  cinv c' /\ c_th c' = c_th c /\ c_num c' = c_num c /\ c_stop c' = c_stop c /\ c_open c' = c_open c /\ c_t c' = c_t c.
Proof.
  intros [(W & F0 & L) B O Li Ca Op X F S Nu] Hm HF.
  destruct (linv_move fuel c c' W F0 L Hm) as (h & w & f & -> & L' & St & Fr).
  split; [|auto]. constructor; cbn [set_lists c_heap c_waiting c_flushing c_th c_open c_num c_stop] in *; auto.
  - eauto.
  - intros x. rewrite St, <- B. destruct (stt (c_heap c x)); split; discriminate || auto.
  - intros x. rewrite St, <- Li. destruct (stt (c_heap c x)); split; intros; congruence.
  - intros t x Ht. rewrite St, (X t x Ht). reflexivity.
  - intros t Ht. split; [eauto|]. apply (F t Ht).
Qed.

Lemma move_all_wakes fuel c c' wake : move_all fuel c = Some c' ->
  move_all fuel (wakes c wake) = Some (wakes c' wake).
Proof.
  unfold move_all, wakes. cbn [c_heap c_waiting c_flushing].
  destruct (mark fuel (c_heap c) (dl_head (c_waiting c))) as [h|]; [|discriminate].
  destruct (splice h (c_flushing c) (c_waiting c)) as [[h2 f2] w2]. intros H. injection H as <-. reflexivity.
Qed.

Lemma wake_w_busy th u : busyof (wake_w th u) = busyof (th u).
Proof. unfold wake_w. destruct (th u); auto. Qed.
Lemma wake_w_close th u : closeof (wake_w th u) = closeof (th u).
Proof. unfold wake_w. destruct (th u); auto. Qed.
Lemma wake_w_call th u : callof (wake_w th u) = callof (th u).
Proof. unfold wake_w. destruct (th u); auto. Qed.
Lemma wake_w_run th u : running (wake_w th u) = running (th u).
Proof. unfold wake_w. destruct (th u); auto. Qed.
Lemma wake_w_x th u x : wake_w th u <> TWaitX x false.
Proof. unfold wake_w. destruct (th u); discriminate. Qed.
Lemma wake_w_s th u : wake_w th u <> TWaitS false.
Proof. unfold wake_w. destruct (th u); discriminate. Qed.
Lemma wake_w_f th u : wake_w th u = TWaitF false false -> th u = TWaitF false false.
Proof. unfold wake_w. destruct (th u); intros; congruence. Qed.

Lemma cinv_wake_w c : cinv c -> cinv (wakes c wake_w).
Proof.
  intros I. apply (cinv_plain c); auto; cbn [wakes c_th c_heap c_num c_stop c_flushing].
  - intros u. rewrite wake_w_busy, wake_w_close, wake_w_call. auto.
  - intros u x H. exfalso. revert H. apply wake_w_x.
  - intros u H. apply wake_w_f in H. apply (ci_f c I u H).
  - intros u H. exfalso. revert H. apply wake_w_s.
  - apply (counted_eq (c_th c)); [|apply (ci_n c I)]. intros u. apply wake_w_run.
Qed.

(** flush_one takes a store. *)
Lemma cinv_take c t r x h l : cinv c -> c_th c t = TLoop r -> dl_head (c_flushing c) = Some x ->
  dl_erase (set_stt (c_heap c) x SIntermediate) (c_flushing c) x = (h, l) ->
  cinv (goto (set_lists c h (c_waiting c) l) t (TBusy r x)) /\
  stt (c_heap c x) = SFlushing /\ (forall y, y <> x -> off_list (stt (c_heap c y)) -> h y = c_heap c y).
Proof.
  intros [(W & F0 & L) B O Li Ca Op X F S Nu] Ht Hh He.
  destruct (linv_take _ _ _ _ _ _ _ _ L Hh He) as (F' & -> & L' & St & Fr).
  assert (Sx : stt (c_heap c x) = SFlushing) by (apply (li_sf _ _ _ _ _ L); left; auto).
  assert (Nb : forall u, busyof (c_th c u) <> Some x).
  { intros u Hu. assert (stt (c_heap c x) = SIntermediate) by (apply B; eauto). congruence. }
  split; [|split; [exact Sx|exact Fr]].
  constructor; cbn [goto set_lists c_heap c_waiting c_flushing c_th c_open c_num c_stop]; auto.
  - eauto.
  - intros y. rewrite St. destruct (N.eqb_spec y x) as [->|Hne].
    + split; auto. intros _. exists t. rewrite upd_same. reflexivity.
    + rewrite B. split; intros (u & Hu); exists u; revert Hu; unfold upd; destruct (N.eqb_spec u t) as [->|]; auto.
      * rewrite Ht. discriminate.
      * simpl. congruence.
  - intros u v y. unfold upd. destruct (N.eqb_spec u t), (N.eqb_spec v t); subst; auto; simpl.
    + intros E1 E2. injection E1 as <-. exfalso. apply (Nb v). exact E2.
    + intros E1 E2. injection E2 as <-. exfalso. apply (Nb u). exact E1.
    + apply O.
  - intros y. rewrite St. destruct (N.eqb_spec y x) as [->|Hne].
    + split; [|discriminate]. intros _. assert (Y : stt (c_heap c x) <> SNone) by congruence.
      apply Li in Y as [Y|(u & Y)]; [auto|right]. exists u. unfold upd. destruct (N.eqb_spec u t) as [->|]; auto.
      rewrite Ht in Y. discriminate.
    + rewrite Li. split; (intros [Y|(u & Y)]; [auto|right]); exists u; revert Y; unfold upd;
        destruct (N.eqb_spec u t) as [->|]; auto; [rewrite Ht|]; discriminate.
  - intros u v y. unfold upd. destruct (N.eqb_spec u t), (N.eqb_spec v t); subst; simpl; try discriminate. apply Ca.
  - intros u y. unfold upd. destruct (N.eqb_spec u t); simpl; [discriminate|apply Op].
  - intros u y. unfold upd. destruct (N.eqb_spec u t); simpl; [discriminate|]. intros Hu. fold (upd (c_heap c) x).
    change (stt (h y) = SIntermediate). rewrite St. destruct (N.eqb_spec y x); auto. eapply X; eauto.
  - intros u. unfold upd. destruct (N.eqb_spec u t); simpl; [discriminate|]. intros Hu.
    destruct (F u Hu) as [Y _]. unfold empty in Y. rewrite Hh in Y. discriminate.
  - intros u. unfold upd. destruct (N.eqb_spec u t); simpl; [discriminate|]. apply S.
  - apply (counted_eq (c_th c)); auto. intros u. unfold upd. destruct (N.eqb_spec u t) as [->|]; auto.
    rewrite Ht. reflexivity.
Qed.

(** flush_one puts it back. *)
Lemma cinv_put c t r x h l : cinv c -> c_th c t = TBusy r x ->
  push_back (set_stt (c_heap c) x SWaiting) (c_waiting c) x = (h, l) ->
  cinv (wakes (goto (set_lists c h l (c_flushing c)) t (TLoop r)) wake_w) /\
  stt (c_heap c x) = SIntermediate /\ (forall y, y <> x -> off_list (stt (c_heap c y)) -> h y = c_heap c y).
Proof.
  intros [(W & F0 & L) B O Li Ca Op X F S Nu] Ht He.
  assert (Sx : stt (c_heap c x) = SIntermediate) by (apply B; exists t; rewrite Ht; reflexivity).
  destruct (linv_put _ _ _ _ _ x _ _ L (or_intror Sx) He) as (L' & St & Fr).
  split; [|split; [exact Sx|exact Fr]].
  constructor; cbn [wakes goto set_lists c_heap c_waiting c_flushing c_th c_open c_num c_stop].
  - eauto.
  - intros y. rewrite St. destruct (N.eqb_spec y x) as [->|Hne].
    + split; [discriminate|]. intros (u & Hu). rewrite wake_w_busy in Hu. revert Hu. unfold upd.
      destruct (N.eqb_spec u t) as [->|Hn]; [discriminate|]. intros Hu. exfalso. apply Hn. apply (O u t x); auto.
      rewrite Ht. reflexivity.
    + rewrite B. split; intros (u & Hu); exists u; rewrite ?wake_w_busy in *; revert Hu; unfold upd; destruct (N.eqb_spec u t) as [->|]; auto.
      * rewrite Ht. simpl. congruence.
      * discriminate.
  - intros u v y. rewrite !wake_w_busy. unfold upd.
    destruct (N.eqb_spec u t), (N.eqb_spec v t); subst; try discriminate; auto. apply O.
  - intros y. rewrite St. destruct (N.eqb_spec y x) as [->|Hne].
    + split; [|discriminate]. intros _. assert (Y : stt (c_heap c x) <> SNone) by congruence.
      apply Li in Y as [Y|(u & Y)]; [auto|right]. exists u. rewrite wake_w_close. unfold upd. destruct (N.eqb_spec u t) as [->|]; auto.
      rewrite Ht in Y. discriminate.
    + rewrite Li. split; (intros [Y|(u & Y)]; [auto|right]); exists u; rewrite ?wake_w_close in *; revert Y; unfold upd;
        destruct (N.eqb_spec u t) as [->|]; auto; [rewrite Ht|]; discriminate.
  - intros u v y. rewrite !wake_w_call. unfold upd. destruct (N.eqb_spec u t), (N.eqb_spec v t); subst; simpl; try discriminate. apply Ca.
  - intros u y. rewrite wake_w_call. unfold upd. destruct (N.eqb_spec u t); simpl; [discriminate|apply Op].
  - intros u y H. exfalso. revert H. apply wake_w_x.
  - intros u H. apply wake_w_f in H. revert H. unfold upd. destruct (N.eqb_spec u t); simpl; [discriminate|]. apply F.
  - intros u H. exfalso. revert H. apply wake_w_s.
  - apply (counted_eq (c_th c)); auto. intros u. rewrite wake_w_run. unfold upd. destruct (N.eqb_spec u t) as [->|]; auto.
    rewrite Ht. reflexivity.
Qed.

(** open() *)
Lemma cinv_opened c t x h l : cinv c -> c_th c t = TOpen x ->
  push_back (set_stt (c_heap c) x SWaiting) (c_waiting c) x = (h, l) ->
  cinv (wakes (goto (set_open (set_lists c h l (c_flushing c)) x true) t TIdle) wake_w) /\
  stt (c_heap c x) = SNone /\ (forall y, y <> x -> off_list (stt (c_heap c y)) -> h y = c_heap c y).
Proof.
  intros [(W & F0 & L) B O Li Ca Op X F S Nu] Ht He.
  assert (Cx : callof (c_th c t) = Some x) by (rewrite Ht; reflexivity).
  assert (Ncl : forall u, closeof (c_th c u) <> Some x).
  { intros u Hu. assert (Hc : callof (c_th c u) = Some x) by (destruct (c_th c u); simpl in *; congruence).
    assert (u = t) by (eapply Ca; eauto). subst u. rewrite Ht in Hu. discriminate. }
  assert (Sx : stt (c_heap c x) = SNone).
  { destruct (stt (c_heap c x)) eqn:E; auto; exfalso;
      (assert (Y : stt (c_heap c x) <> SNone) by congruence; apply Li in Y as [Y|(u & Y)];
       [rewrite (Op t x Cx) in Y; discriminate|exact (Ncl u Y)]). }
  destruct (linv_put _ _ _ _ _ x _ _ L (or_introl Sx) He) as (L' & St & Fr).
  split; [|split; [exact Sx|exact Fr]].
  constructor; cbn [wakes goto set_open set_lists c_heap c_waiting c_flushing c_th c_open c_num c_stop].
  - eauto.
  - intros y. rewrite St. destruct (N.eqb_spec y x) as [->|Hne].
    + split; [discriminate|]. intros (u & Hu). rewrite wake_w_busy in Hu. revert Hu. unfold upd.
      destruct (N.eqb_spec u t) as [->|Hn]; [discriminate|]. intros Hu. exfalso.
      assert (stt (c_heap c x) = SIntermediate) by (apply B; eauto). congruence.
    + rewrite B. split; intros (u & Hu); exists u; rewrite ?wake_w_busy in *; revert Hu; unfold upd; destruct (N.eqb_spec u t) as [->|]; auto.
      * rewrite Ht. discriminate.
      * discriminate.
  - intros u v y. rewrite !wake_w_busy. unfold upd.
    destruct (N.eqb_spec u t), (N.eqb_spec v t); subst; try discriminate; auto. apply O.
  - intros y. rewrite St. unfold upd at 1. destruct (N.eqb_spec y x) as [->|Hne].
    + split; [auto|discriminate].
    + rewrite Li. split; (intros [Y|(u & Y)]; [auto|right]); exists u; rewrite ?wake_w_close in *; revert Y; unfold upd;
        destruct (N.eqb_spec u t) as [->|]; auto; [rewrite Ht|]; discriminate.
  - intros u v y. rewrite !wake_w_call. unfold upd. destruct (N.eqb_spec u t), (N.eqb_spec v t); subst; simpl; try discriminate. apply Ca.
  - intros u y. rewrite wake_w_call. unfold upd. destruct (N.eqb_spec u t) as [|Hn]; simpl; [discriminate|].
    intros Hu. destruct (N.eqb_spec y x) as [->|]; [|eapply Op; eauto]. exfalso. apply Hn. eapply Ca; eauto.
  - intros u y H. exfalso. revert H. apply wake_w_x.
  - intros u H. apply wake_w_f in H. revert H. unfold upd. destruct (N.eqb_spec u t); simpl; [discriminate|]. apply F.
  - intros u H. exfalso. revert H. apply wake_w_s.
  - apply (counted_eq (c_th c)); auto. intros u. rewrite wake_w_run. unfold upd. destruct (N.eqb_spec u t) as [->|]; auto.
    rewrite Ht. reflexivity.
Qed.

(** close() *)
Lemma cinv_closed c t x : cinv c -> closeof (c_th c t) = Some x -> stt (c_heap c x) <> SIntermediate ->
  cinv (goto (unlink c x) t TIdle) /\
  stt (c_heap (unlink c x) x) = SNone /\
  (forall y, y <> x -> off_list (stt (c_heap c y)) -> c_heap (unlink c x) y = c_heap c y).
Proof.
  intros [(W & F0 & L) B O Li Ca Op X F S Nu] Ht Hx.
  assert (Cx : callof (c_th c t) = Some x) by (destruct (c_th c t); simpl in *; congruence).
  assert (Rt : running (c_th c t) = false /\ busyof (c_th c t) = None) by (destruct (c_th c t); simpl in *; auto; discriminate).
  destruct Rt as [Rt Bt].
  destruct (linv_unlink c x W F0 L Hx) as (h & w & f & W' & F' & L' & Hu & St & Fr & Em).
  assert (G : c_heap (unlink c x) = h /\ c_waiting (unlink c x) = w /\ c_flushing (unlink c x) = f /\
              c_num (unlink c x) = c_num c /\ c_stop (unlink c x) = c_stop c /\ c_open (unlink c x) = c_open c /\
              (c_th (unlink c x) = c_th c \/ c_th (unlink c x) = wake_w (c_th c))).
  { destruct Hu as [-> | ->]; cbn; auto 20. }
  destruct G as (G1 & G2 & G3 & G4 & G5 & G6 & G7).
  assert (Tb : forall u, busyof (c_th (unlink c x) u) = busyof (c_th c u)) by (intros u; destruct G7 as [-> | ->]; auto using wake_w_busy).
  assert (Tc : forall u, closeof (c_th (unlink c x) u) = closeof (c_th c u)) by (intros u; destruct G7 as [-> | ->]; auto using wake_w_close).
  assert (Ta : forall u, callof (c_th (unlink c x) u) = callof (c_th c u)) by (intros u; destruct G7 as [-> | ->]; auto using wake_w_call).
  assert (Tr : forall u, running (c_th (unlink c x) u) = running (c_th c u)) by (intros u; destruct G7 as [-> | ->]; auto using wake_w_run).
  assert (Tx : forall u y, c_th (unlink c x) u = TWaitX y false -> c_th c u = TWaitX y false).
  { intros u y. destruct G7 as [-> | ->]; auto. intros H. exfalso. revert H. apply wake_w_x. }
  assert (Ts : forall u, c_th (unlink c x) u = TWaitS false -> c_th c u = TWaitS false).
  { intros u. destruct G7 as [-> | ->]; auto. intros H. exfalso. revert H. apply wake_w_s. }
  assert (Tf : forall u, c_th (unlink c x) u = TWaitF false false -> c_th c u = TWaitF false false).
  { intros u. destruct G7 as [-> | ->]; auto. apply wake_w_f. }
  split; [|rewrite G1; split; [rewrite St, N.eqb_refl; auto|exact Fr]].
  constructor; cbn [goto c_heap c_waiting c_flushing c_th c_open c_num c_stop]; rewrite ?G1, ?G2, ?G3, ?G4, ?G5, ?G6.
  - eauto.
  - intros y. rewrite St. destruct (N.eqb_spec y x) as [->|Hne].
    + split; [discriminate|]. intros (u & Hu'). exfalso. apply Hx. apply B. exists u. revert Hu'. unfold upd.
      destruct (N.eqb_spec u t); [discriminate|]. rewrite Tb. auto.
    + rewrite B. split; intros (u & Y); exists u; revert Y; unfold upd; destruct (N.eqb_spec u t) as [->|]; rewrite ?Tb; auto.
      * rewrite Bt. discriminate.
      * discriminate.
  - intros u v y. unfold upd. destruct (N.eqb_spec u t), (N.eqb_spec v t); subst; try discriminate; auto. rewrite !Tb. apply O.
  - intros y. rewrite St. destruct (N.eqb_spec y x) as [->|Hne].
    + split; [congruence|]. intros [Y|(u & Y)].
      * rewrite (Op t x Cx) in Y. discriminate.
      * exfalso. revert Y. unfold upd. destruct (N.eqb_spec u t) as [|Hn]; [discriminate|]. rewrite Tc. intros Y.
        apply Hn. apply (Ca u t x); auto. destruct (c_th c u); simpl in *; congruence.
    + rewrite Li. split; (intros [Y|(u & Y)]; [auto|right]); exists u; revert Y; unfold upd;
        destruct (N.eqb_spec u t) as [->|]; rewrite ?Tc; auto; [congruence|discriminate].
  - intros u v y. unfold upd. destruct (N.eqb_spec u t), (N.eqb_spec v t); subst; simpl; try discriminate. rewrite !Ta. apply Ca.
  - intros u y. unfold upd. destruct (N.eqb_spec u t); simpl; [discriminate|rewrite Ta; apply Op].
  - intros u y. unfold upd. destruct (N.eqb_spec u t) as [|Hn]; simpl; [discriminate|]. intros H. apply Tx in H.
    rewrite St. destruct (N.eqb_spec y x) as [->|]; [|eapply X; eauto]. exfalso. apply Hn. apply (Ca u t x); auto. rewrite H. reflexivity.
  - intros u. unfold upd. destruct (N.eqb_spec u t); simpl; [discriminate|]. intros H. apply Tf in H.
    destruct (F u H). auto.
  - intros u. unfold upd. destruct (N.eqb_spec u t); simpl; [discriminate|]. intros H. apply (S u). auto.
  - apply (counted_eq (c_th c)); auto. intros u. unfold upd. destruct (N.eqb_spec u t) as [->|]; auto.
Qed.

(** begin of a call *)
Lemma cinv_begin c t s c' : cinv c -> c_th c t = TIdle -> begins c s c' ->
  cinv (goto c' t s) /\ c_heap c' = c_heap c.
Proof.
  intros I Ht Hb. destruct Hb as [ | | | |x Ho Hc|x Ho Hc].
  1-4: (split; [apply (cinv_goto c t TIdle); auto; discriminate|auto]).
  - split; auto. destruct I as [L B O Li Ca Op X F S Nu].
    assert (Nc : forall u, callof (c_th c u) <> Some x) by (intros u H; apply (Hc u), in_call_of; auto).
    constructor; cbn [goto c_heap c_waiting c_flushing c_th c_open c_num c_stop]; auto.
    + intros y. rewrite B. split; intros (u & H); exists u; revert H; unfold upd; destruct (N.eqb_spec u t) as [->|]; auto;
        [rewrite Ht|]; discriminate.
    + intros u v y. unfold upd. destruct (N.eqb_spec u t), (N.eqb_spec v t); subst; try discriminate; auto. apply O.
    + intros y. rewrite Li. split; (intros [Y|(u & Y)]; [auto|right]); exists u; revert Y; unfold upd;
        destruct (N.eqb_spec u t) as [->|]; auto; [rewrite Ht|]; discriminate.
    + intros u v y. unfold upd. destruct (N.eqb_spec u t), (N.eqb_spec v t); subst; simpl; auto.
      * intros E1 E2. injection E1 as <-. exfalso. exact (Nc _ E2).
      * intros E1 E2. injection E2 as <-. exfalso. exact (Nc _ E1).
      * apply Ca.
    + intros u y. unfold upd. destruct (N.eqb_spec u t); simpl; [|apply Op]. intros E. injection E as <-. auto.
    + intros u y. unfold upd. destruct (N.eqb_spec u t); simpl; [discriminate|apply X].
    + intros u. unfold upd. destruct (N.eqb_spec u t); simpl; [discriminate|apply F].
    + intros u. unfold upd. destruct (N.eqb_spec u t); simpl; [discriminate|apply S].
    + apply (counted_eq (c_th c)); auto. intros u. unfold upd. destruct (N.eqb_spec u t) as [->|]; auto. rewrite Ht. auto.
  - split; auto. destruct I as [L B O Li Ca Op X F S Nu].
    assert (Nc : forall u, callof (c_th c u) <> Some x) by (intros u H; apply (Hc u), in_call_of; auto).
    constructor; cbn [goto set_open c_heap c_waiting c_flushing c_th c_open c_num c_stop]; auto.
    + intros y. rewrite B. split; intros (u & H); exists u; revert H; unfold upd; destruct (N.eqb_spec u t) as [->|]; auto;
        [rewrite Ht|]; discriminate.
    + intros u v y. unfold upd. destruct (N.eqb_spec u t), (N.eqb_spec v t); subst; try discriminate; auto. apply O.
    + intros y. rewrite Li. unfold upd at 1. destruct (N.eqb_spec y x) as [->|Hne].
      * split; [|auto]. intros _. right. exists t. rewrite upd_same. reflexivity.
      * split; (intros [Y|(u & Y)]; [auto|right]); exists u; revert Y; unfold upd;
          destruct (N.eqb_spec u t) as [->|]; auto; [rewrite Ht; discriminate|simpl; congruence].
    + intros u v y. unfold upd. destruct (N.eqb_spec u t), (N.eqb_spec v t); subst; simpl; auto.
      * intros E1 E2. injection E1 as <-. exfalso. exact (Nc _ E2).
      * intros E1 E2. injection E2 as <-. exfalso. exact (Nc _ E1).
      * apply Ca.
    + intros u y. unfold upd. destruct (N.eqb_spec y x) as [->|]; auto. destruct (N.eqb_spec u t); simpl; [|apply Op].
      intros E. injection E as <-. congruence.
    + intros u y. unfold upd. destruct (N.eqb_spec u t); simpl; [discriminate|apply X].
    + intros u. unfold upd. destruct (N.eqb_spec u t); simpl; [discriminate|apply F].
    + intros u. unfold upd. destruct (N.eqb_spec u t); simpl; [discriminate|apply S].
    + apply (counted_eq (c_th c)); auto. intros u. unfold upd. destruct (N.eqb_spec u t) as [->|]; auto. rewrite Ht. auto.
Qed.

Lemma empty_head l : empty l = true <-> dl_head l = None.
Proof. unfold empty. destruct (dl_head l); split; congruence. Qed.

Theorem cinv_step c t l c' : cinv c -> cstep c t l c' -> cinv c' /\
  (forall x, stt (c_heap c x) = SNone -> l <> LOpened t x -> c_heap c' x = c_heap c x).
Proof.
  intros I H. destruct H as
    [s c' Ht Hk Hb|Ht Hs|k Ht Hs Hk Hi|Ht|f Ht Hs|Ht Hs|Ht Hs He|Ht Hs He|f Ht|x Ht|Ht|Ht Hs
    |fuel c' Ht Hs Hm|Ht Hs He|Ht Hs|Ht Hs He|Ht|Ht Hs|fuel c' Ht Hs Hn Hm|r Ht He|r x h l Ht Hh He|r x h l Ht He
    |x h l Ht He|x Ht Hx|x Ht Hx|x Ht Hx|x Ht Hx|Ht Hs|Ht Hs|Ht Hn|k Ht Hn Hk|Ht Hn Hk|k Ht Hk|Ht].
  - destruct (cinv_begin c t s c' I Ht Hb) as [A B]. split; auto. intros x _ _. cbn. rewrite B. auto.
  - split; [|auto]. apply (cinv_goto c t TStart); auto; discriminate.
  - split; [|auto]. assert (Hne : k <> t) by congruence.
    apply (cinv_plain c); auto; cbn [goto set_t c_heap c_waiting c_flushing c_th c_open c_num c_stop]; unfold upd.
    + intros u. destruct (N.eqb_spec u t) as [->|]; [rewrite Ht; auto|]. destruct (N.eqb_spec u k) as [->|]; auto. rewrite Hi. auto.
    + intros u x. destruct (N.eqb_spec u t); [discriminate|]. destruct (N.eqb_spec u k); [discriminate|]. apply (ci_x c I).
    + intros u. destruct (N.eqb_spec u t); [discriminate|]. destruct (N.eqb_spec u k); [discriminate|]. apply (ci_f c I).
    + intros u. destruct (N.eqb_spec u t); [discriminate|]. destruct (N.eqb_spec u k); [discriminate|]. apply (ci_s c I).
    + apply (counted_eq (c_th c)); [|apply (ci_n c I)]. intros u. destruct (N.eqb_spec u t) as [->|]; [rewrite Ht; auto|].
      destruct (N.eqb_spec u k) as [->|]; auto. rewrite Hi. auto.
  - split; [|auto].
    apply (cinv_plain c); auto; cbn [goto set_num c_heap c_waiting c_flushing c_th c_open c_num c_stop]; unfold upd.
    + intros u. destruct (N.eqb_spec u t) as [->|]; auto. rewrite Ht. auto.
    + intros u x. destruct (N.eqb_spec u t); [discriminate|]. apply (ci_x c I).
    + intros u. destruct (N.eqb_spec u t); [discriminate|]. apply (ci_f c I).
    + intros u. destruct (N.eqb_spec u t); [discriminate|]. lia.
    + apply (counted_in (c_th c) _ _ t); [rewrite Ht; auto|rewrite N.eqb_refl; auto| |apply (ci_n c I)].
      intros u Hu. destruct (N.eqb_spec u t); [contradiction|auto].
  - split; [|auto]. apply (cinv_goto c t (TTop f)); auto; discriminate.
  - split; [|auto]. apply (cinv_goto c t (TTop true)); auto; discriminate.
  - split; [|auto]. apply (cinv_goto c t (TTop false)); auto; discriminate.
  - split; [|auto]. apply (cinv_goto c t (TTop false)); auto; discriminate.
  - split; [|auto]. apply (cinv_goto c t (TWaitF f false)); auto; discriminate.
  - split; [|auto]. apply (cinv_goto c t (TWaitX x false)); auto; discriminate.
  - split; [|auto]. apply (cinv_goto c t (TWaitS false)); auto; discriminate.
  - split; [|auto]. apply (cinv_goto c t (TWaitF true true)); auto; discriminate.
  - (* first *)
    pose proof I as I0. destruct I as [(W & F0 & L) B O Li Ca Op X F S Nu].
    destruct (linv_move fuel c c' W F0 L Hm) as (h & w & f & Ec & L' & St & Fr).
    split.
    2: { intros x Hx _. assert (E : c_heap c' x = c_heap c x) by (rewrite Ec; apply Fr; left; auto).
         destruct (empty (c_flushing c')); [exact E|]. destruct (1 <? c_num c'); exact E. }
    assert (Rt : running (c_th c t) = true) by (rewrite Ht; auto).
    destruct (empty (c_flushing c')) eqn:Ee; [|destruct (N.ltb_spec 1 (c_num c')) as [Hn|Hn]].
    + destruct (cinv_move fuel c c' I0 Hm) as (I' & E1 & _); [auto|].
      apply (cinv_goto c' t (TWaitF true true)); auto; try discriminate. rewrite E1. auto.
    + destruct (cinv_move fuel (wakes c wake_f) (wakes c' wake_f) (cinv_wake_f c I0)) as (I' & E1 & _).
      * apply move_all_wakes. auto.
      * intros u. cbn [wakes c_th]. unfold wake_f. destruct (c_th c u); discriminate.
      * apply (cinv_goto (wakes c' wake_f) t (TWaitF true true)); auto; try discriminate.
        rewrite E1. cbn [wakes c_th]. unfold wake_f. rewrite Ht. auto.
    + destruct (cinv_move fuel c c' I0 Hm) as (I' & E1 & _).
      { intros u Hu. exfalso. assert (u = t); [|subst; congruence].
        rewrite Ec in Hn. cbn [set_lists c_num] in Hn.
        apply (counted_1 (c_th c) u t (c_num c)); auto. rewrite Hu. auto. }
      apply (cinv_goto c' t (TWaitF true true)); auto; try discriminate. rewrite E1. auto.
  - split; [|auto]. apply (cinv_goto c t (TWaitF false true)); auto; discriminate.
  - split; [|auto]. apply (cinv_goto c t (TWaitF false true)); auto; discriminate.
  - split; [|auto]. apply (cinv_goto c t (TWaitF false true)); auto; discriminate.
  - split; [|auto].
    apply (cinv_plain c); auto; cbn [wakes goto set_num c_heap c_waiting c_flushing c_th c_open c_num c_stop].
    + intros u. rewrite wake_w_busy, wake_w_close, wake_w_call. unfold upd. destruct (N.eqb_spec u t) as [->|]; auto. rewrite Ht. auto.
    + intros u x H. exfalso. revert H. apply wake_w_x.
    + intros u H. apply wake_w_f in H. revert H. unfold upd. destruct (N.eqb_spec u t); [discriminate|]. apply (ci_f c I).
    + intros u H. exfalso. revert H. apply wake_w_s.
    + apply (counted_out (c_th c) _ _ t); [rewrite Ht; auto|rewrite wake_w_run, upd_same; auto| |apply (ci_n c I)].
      intros u Hu. rewrite wake_w_run, upd_other; auto.
  - split; [|auto]. apply (cinv_goto c t TFlush); auto; discriminate.
  - (* flush() *)
    pose proof I as I0. destruct I as [(W & F0 & L) B O Li Ca Op X F S Nu].
    destruct (linv_move fuel c c' W F0 L Hm) as (h & w & f & Ec & L' & St & Fr).
    destruct (cinv_move fuel c c' I0 Hm) as (I' & E1 & _).
    { intros u Hu. exfalso. rewrite Hn in Nu. apply (counted_0 _ u) in Nu. rewrite Hu in Nu. discriminate. }
    split.
    + apply (cinv_goto c' t TFlush); auto; try discriminate. rewrite E1. auto.
    + intros x Hx _. rewrite Ec. apply Fr. left. auto.
  - split; [|auto]. apply (cinv_goto c t (TLoop r)); auto; destruct r; auto; discriminate.
  - destruct (cinv_take c t r x h l I Ht Hh He) as (A & B & C). split; auto.
    intros y Hy _. apply C; [congruence|left; auto].
  - destruct (cinv_put c t r x h l I Ht He) as (A & B & C). split; auto.
    intros y Hy _. apply C; [congruence|left; auto].
  - destruct (cinv_opened c t x h l I Ht He) as (A & B & C). split; auto.
    intros y Hy Hl. apply C; [congruence|left; auto].
  - assert (Hc : closeof (c_th c t) = Some x) by (rewrite Ht; auto).
    destruct (cinv_closed c t x I Hc Hx) as (A & B & C). split; auto.
    intros y Hy _. destruct (N.eq_dec y x) as [->|]; [|apply C; auto; left; auto].
    exfalso. assert (Y : stt (c_heap c x) <> SNone) by (apply (ci_live c I); eauto). congruence.
  - split; [|auto]. apply (cinv_goto c t (TClose x)); auto; try discriminate. intros y E. injection E as <-. auto.
  - split; [|auto]. apply (cinv_goto c t (TWaitX x true)); auto; try discriminate. intros y E. injection E as <-. auto.
  - assert (Hc : closeof (c_th c t) = Some x) by (rewrite Ht; auto).
    destruct (cinv_closed c t x I Hc Hx) as (A & B & C). split; auto.
    intros y Hy _. destruct (N.eq_dec y x) as [->|]; [|apply C; auto; left; auto].
    exfalso. assert (Y : stt (c_heap c x) <> SNone) by (apply (ci_live c I); eauto). congruence.
  - split; [|auto]. apply (cinv_goto c t TStop); auto; discriminate.
  - split; [|auto].
    apply (cinv_plain c); auto; cbn [wakes goto set_stop c_heap c_waiting c_flushing c_th c_open c_num c_stop]; unfold upd.
    + intros u. destruct (N.eqb_spec u t) as [->|]; [rewrite Ht; auto|]. rewrite wake_w_busy, wake_w_close, wake_w_call.
      unfold wake_f. destruct (c_th c u); auto.
    + intros u x. destruct (N.eqb_spec u t); [discriminate|]. intros H. exfalso. revert H. apply wake_w_x.
    + intros u. destruct (N.eqb_spec u t); [discriminate|]. intros H. apply wake_w_f in H. revert H. unfold wake_f.
      destruct (c_th c u); discriminate.
    + intros u. destruct (N.eqb_spec u t); [discriminate|]. intros H. exfalso. revert H. apply wake_w_s.
    + apply (counted_eq (c_th c)); [|apply (ci_n c I)]. intros u. destruct (N.eqb_spec u t) as [->|]; [rewrite Ht; auto|].
      rewrite wake_w_run. unfold wake_f. destruct (c_th c u); auto.
  - split; [|auto]. apply (cinv_goto c t (TWaitS true)); auto; discriminate.
  - split; [|auto]. apply (cinv_goto c t (TWaitS true)); auto; discriminate.
  - split; [|auto].
    apply (cinv_plain c); auto; cbn [goto set_stop c_heap c_waiting c_flushing c_th c_open c_num c_stop]; unfold upd.
    + intros u. destruct (N.eqb_spec u t) as [->|]; auto. rewrite Ht. auto.
    + intros u x. destruct (N.eqb_spec u t); [discriminate|]. apply (ci_x c I).
    + intros u. destruct (N.eqb_spec u t); [discriminate|]. intros H. destruct (ci_f c I u H). auto.
    + intros u. destruct (N.eqb_spec u t); [discriminate|]. apply (ci_s c I).
    + apply (counted_eq (c_th c)); [|apply (ci_n c I)]. intros u. destruct (N.eqb_spec u t) as [->|]; auto. rewrite Ht. auto.
  - split; [|auto].
    apply (cinv_plain c); auto; cbn [goto set_t c_heap c_waiting c_flushing c_th c_open c_num c_stop]; unfold upd.
    + intros u. destruct (N.eqb_spec u t) as [->|]; auto. rewrite Ht. auto.
    + intros u x. destruct (N.eqb_spec u t); [discriminate|]. apply (ci_x c I).
    + intros u. destruct (N.eqb_spec u t); [discriminate|]. apply (ci_f c I).
    + intros u. destruct (N.eqb_spec u t); [discriminate|]. apply (ci_s c I).
    + apply (counted_eq (c_th c)); [|apply (ci_n c I)]. intros u. destruct (N.eqb_spec u t) as [->|]; auto. rewrite Ht. auto.
  - split; [|auto].
    apply (cinv_plain c); auto; cbn [goto set_stop c_heap c_waiting c_flushing c_th c_open c_num c_stop]; unfold upd.
    + intros u. destruct (N.eqb_spec u t) as [->|]; auto. rewrite Ht. auto.
    + intros u x. destruct (N.eqb_spec u t); [discriminate|]. apply (ci_x c I).
    + intros u. destruct (N.eqb_spec u t); [discriminate|]. intros H. destruct (ci_f c I u H). auto.
    + intros u. destruct (N.eqb_spec u t); [discriminate|]. apply (ci_s c I).
    + apply (counted_eq (c_th c)); [|apply (ci_n c I)]. intros u. destruct (N.eqb_spec u t) as [->|]; auto. rewrite Ht. auto.
Qed.

Lemma cinv_exec c ls c' : cinv c -> cexec c ls c' -> cinv c'.
Proof. intros I H. induction H as [c|c t l c1 ls c2 H1 H2 IH]; auto. apply IH. eapply cinv_step; eauto. Qed.
Lemma cinv_reachable c : reachable c -> cinv c.
Proof. intros (ls & H). eapply cinv_exec; [apply cinv0|eauto]. Qed.
