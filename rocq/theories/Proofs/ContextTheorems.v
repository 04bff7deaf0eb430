(** What the context guarantees. *)
From Verif Require Import Model.Bytes Model.Context SpecContext Proofs.BytesFacts Proofs.ContextFacts Proofs.ContextInv.

Lemma busy_of s x : busyof s = Some x <-> exists r, s = TBusy r x.
Proof. destruct s; simpl; split; intros H; try discriminate; try (destruct H; discriminate); [injection H as ->; eauto|destruct H; congruence]. Qed.

Lemma one_place c : reachable c -> exists W F,
  holds_list (c_heap c) (c_waiting c) W /\ holds_list (c_heap c) (c_flushing c) F /\
  forall x, c_open c x = true ->
    (In x W /\ ~ In x F /\ (forall t r, c_th c t <> TBusy r x)) \/
    (In x F /\ ~ In x W /\ (forall t r, c_th c t <> TBusy r x)) \/
    (~ In x W /\ ~ In x F /\ exists t r, c_th c t = TBusy r x /\ forall u q, c_th c u = TBusy q x -> u = t).
Proof.
  intros H. apply cinv_reachable in H. destruct H as [(W & F0 & L) B O Li Ca Op X F S Nu].
  exists W, F0. split; [apply rep_holds, L|]. split; [apply rep_holds, L|]. intros x Ho.
  pose proof (li_dis _ _ _ _ _ L) as Hd.
  assert (Nb : stt (c_heap c x) <> SIntermediate -> forall t r, c_th c t <> TBusy r x).
  { intros Hs t r Ht. apply Hs, B. exists t. rewrite Ht. reflexivity. }
  destruct (stt (c_heap c x)) eqn:E.
  - left. apply (li_sw _ _ _ _ _ L) in E as Hi. split; auto. split; [apply Hd; auto|apply Nb; congruence].
  - right. left. apply (li_sf _ _ _ _ _ L) in E as Hi. split; auto. split; [intros Hw; exact (Hd x Hw Hi)|apply Nb; congruence].
  - right. right. destruct (off_notin _ _ _ _ _ x L) as [N1 N2]; [right; auto|]. split; auto. split; auto.
    apply B in E as (t & Ht). pose proof Ht as Ht'. apply busy_of in Ht as (r & Ht). exists t, r. split; auto.
    intros u q Hu. apply (O u t x); auto. rewrite Hu. reflexivity.
  - exfalso. apply (proj2 (Li x)); auto.
Qed.

Lemma nothing_else c : reachable c -> forall W F x,
  holds_list (c_heap c) (c_waiting c) W -> holds_list (c_heap c) (c_flushing c) F ->
  In x W \/ In x F \/ (exists t r, c_th c t = TBusy r x) ->
  c_open c x = true \/ exists t, c_th c t = TClose x \/ exists b, c_th c t = TWaitX x b.
Proof.
  intros H W F x HW HF Hx. apply cinv_reachable in H. destruct H as [(W' & F' & L) B O Li Ca Op X Ff S Nu].
  apply rep_holds in HW, HF.
  assert (U : forall l a b, rep (c_heap c) l a -> rep (c_heap c) l b -> a = b).
  { clear. assert (G : forall h p a b, lseg h p a None -> lseg h p b None -> first_or a None = first_or b None -> a = b).
    { intros h p a. revert p. induction a as [|y a IH]; intros p b Ha Hb E; [destruct b; auto; discriminate|].
      destruct b as [|z b]; [discriminate|]. simpl in E. injection E as <-. f_equal. simpl in Ha, Hb.
      destruct Ha as (_ & A1 & A2), Hb as (_ & B1 & B2). apply (IH (Some y) b A2 B2).
      rewrite A1 in B1. destruct a, b; simpl; auto. }
    intros l a b (A1 & _ & A3 & _) (B1 & _ & B3 & _). eapply G; eauto. congruence. }
  assert (W = W') by (eapply U; [exact HW|apply L]). assert (F = F') by (eapply U; [exact HF|apply L]). subst W' F'.
  assert (Y : stt (c_heap c x) <> SNone).
  { destruct Hx as [Hx|[Hx|(t & r & Hx)]].
    - apply (li_sw _ _ _ _ _ L) in Hx. congruence.
    - apply (li_sf _ _ _ _ _ L) in Hx. congruence.
    - assert (Z : stt (c_heap c x) = SIntermediate) by (apply B; exists t; rewrite Hx; auto). congruence. }
  apply Li in Y as [Y|(t & Y)]; auto. right. exists t. destruct (c_th c t); simpl in Y; try discriminate; injection Y as ->; eauto.
Qed.

(** ** Closed stores *)
Lemma closed_step c t l c' x : cinv c -> cstep c t l c' -> stt (c_heap c x) = SNone ->
  (forall u, l <> LOpened u x) -> c_heap c' x = c_heap c x /\ (forall u, l <> LFlush u x).
Proof.
  intros I H Hx Hl. destruct (cinv_step c t l c' I H) as (I' & Fr). split; [apply Fr; auto|].
  intros u ->. inversion H as [| | | | | | | | | | | | | | | | | | | |r y h l0 Ht Hh He E1 E2| | | | | | | | | | | | |]. subst.
  destruct (cinv_take c u r x h l0 I Ht Hh He) as (_ & Y & _). congruence.
Qed.

Lemma closed_exec c ls c' x : cinv c -> cexec c ls c' -> stt (c_heap c x) = SNone ->
  (forall u, ~ In (LOpened u x) ls) -> c_heap c' x = c_heap c x /\ (forall u, ~ In (LFlush u x) ls).
Proof.
  intros I H. revert I. induction H as [c|c t l c1 ls c2 H1 H2 IH]; intros I Hx Hl; [split; auto|].
  destruct (closed_step c t l c1 x I H1 Hx) as (A & B).
  { intros u E. apply (Hl u). left. auto. }
  destruct IH as (C & D).
  - eapply cinv_step; eauto.
  - rewrite A. auto.
  - intros u Hu. apply (Hl u). right. auto.
  - split; [congruence|]. intros u [E|E]; [exact (B u E)|exact (D u E)].
Qed.

Lemma closed_stays c t x c1 ls c2 : reachable c -> cstep c t (LClosed t x) c1 -> cexec c1 ls c2 ->
  (forall u, ~ In (LOpened u x) ls) ->
  c_heap c2 x = c_heap c1 x /\ (forall u, ~ In (LFlush u x) ls) /\ (forall u r, c_th c2 u <> TBusy r x) /\
  exists W F, holds_list (c_heap c2) (c_waiting c2) W /\ holds_list (c_heap c2) (c_flushing c2) F /\
    ~ In x W /\ ~ In x F.
Proof.
  intros R H1 H2 Hl. apply cinv_reachable in R as I.
  destruct (cinv_step _ _ _ _ I H1) as (I1 & _).
  assert (Hx : stt (c_heap c1 x) = SNone).
  { inversion H1 as [| | | | | | | | | | | | | | | | | | | | | | |y Ht Hy E1 E2| | |y Ht Hy E1 E2| | | | | | |]; subst; cbn [goto c_heap].
    - apply (cinv_closed c t x I); auto. rewrite Ht. reflexivity.
    - apply (cinv_closed c t x I); auto. rewrite Ht. reflexivity. }
  destruct (closed_exec c1 ls c2 x I1 H2 Hx Hl) as (A & B).
  pose proof (cinv_exec _ _ _ I1 H2) as [(W & F0 & L) Bu O Li Ca Op X F S Nu].
  assert (Hx2 : stt (c_heap c2 x) = SNone) by (rewrite A; auto).
  split; auto. split; auto. split.
  - intros u r Hu. assert (Y : stt (c_heap c2 x) = SIntermediate) by (apply Bu; exists u; rewrite Hu; auto). congruence.
  - exists W, F0. split; [apply rep_holds, L|]. split; [apply rep_holds, L|].
    apply (off_notin _ _ _ _ _ x L). left. auto.
Qed.

(** ** Stores whose turn has come *)
Lemma turn_step c t l c' x : cinv c -> cstep c t l c' -> stt (c_heap c x) = SFlushing ->
  stt (c_heap c' x) = SFlushing \/ l = LFlush t x \/ l = LClosed t x.
Proof.
  intros I H Hx. pose proof I as I0. destruct I as [(W & F0 & L) B O Li Ca Op X F S Nu].
  destruct H as
    [s c' Ht Hk Hb|Ht Hs|k Ht Hs Hk Hi|Ht|f Ht Hs|Ht Hs|Ht Hs He|Ht Hs He|f Ht|y Ht|Ht|Ht Hs
    |fuel c' Ht Hs Hm|Ht Hs He|Ht Hs|Ht Hs He|Ht|Ht Hs|fuel c' Ht Hs Hn Hm|r Ht He|r y h l Ht Hh He|r y h l Ht He
    |y h l Ht He|y Ht Hy|y Ht Hy|y Ht Hy|y Ht Hy|Ht Hs|Ht Hs|Ht Hn|k Ht Hn Hk|Ht Hn Hk|k Ht Hk|Ht]; auto.
  - left. destruct (cinv_begin c t s c' I0 Ht Hb) as [_ E]. cbn [goto c_heap]. rewrite E. auto.
  - left. destruct (linv_move fuel c c' W F0 L Hm) as (h & w & f & -> & L' & St & Fr).
    assert (Y : stt (h x) = SFlushing) by (rewrite St, Hx; auto).
    match goal with |- stt (c_heap (if ?a then _ else _) x) = _ => destruct a; [exact Y|] end.
    match goal with |- stt (c_heap (if ?a then _ else _) x) = _ => destruct a; exact Y end.
  - left. destruct (linv_move fuel c c' W F0 L Hm) as (h & w & f & -> & L' & St & Fr).
    cbn. rewrite St, Hx. auto.
  - destruct (N.eq_dec y x) as [->|Hne]; auto. left.
    destruct (linv_take _ _ _ _ _ _ _ _ L Hh He) as (F' & -> & L' & St & Fr). cbn. rewrite St.
    destruct (N.eqb_spec x y); [congruence|auto].
  - left. destruct (cinv_put c t r y h l I0 Ht He) as (_ & Y & _).
    destruct (linv_put _ _ _ _ _ y _ _ L (or_intror Y) He) as (L' & St & Fr). cbn. rewrite St.
    destruct (N.eqb_spec x y); [congruence|auto].
  - left. destruct (cinv_opened c t y h l I0 Ht He) as (_ & Y & _).
    destruct (linv_put _ _ _ _ _ y _ _ L (or_introl Y) He) as (L' & St & Fr). cbn. rewrite St.
    destruct (N.eqb_spec x y); [congruence|auto].
  - destruct (N.eq_dec y x) as [->|Hne]; auto. left.
    destruct (linv_unlink c y W F0 L Hy) as (h & w & f & W' & F' & L' & Hu & St & Fr & Em).
    assert (E : c_heap (unlink c y) = h) by (destruct Hu as [-> | ->]; reflexivity).
    cbn. rewrite E, St. destruct (N.eqb_spec x y); [congruence|auto].
  - destruct (N.eq_dec y x) as [->|Hne]; auto. left.
    destruct (linv_unlink c y W F0 L Hy) as (h & w & f & W' & F' & L' & Hu & St & Fr & Em).
    assert (E : c_heap (unlink c y) = h) by (destruct Hu as [-> | ->]; reflexivity).
    cbn. rewrite E, St. destruct (N.eqb_spec x y); [congruence|auto].
Qed.

Lemma turn_exec c ls c' x : cinv c -> cexec c ls c' -> stt (c_heap c x) = SFlushing ->
  stt (c_heap c' x) = SFlushing \/ exists u, In (LFlush u x) ls \/ In (LClosed u x) ls.
Proof.
  intros I H. revert I. induction H as [c|c t l c1 ls c2 H1 H2 IH]; intros I Hx; auto.
  destruct (turn_step c t l c1 x I H1 Hx) as [Y|[Y|Y]].
  - destruct (IH (proj1 (cinv_step _ _ _ _ I H1)) Y) as [Z|(u & Z)]; auto. right. exists u. simpl. tauto.
  - right. exists t. left. left. auto.
  - right. exists t. right. left. auto.
Qed.

Lemma turn_taken c t c1 ls c2 u c3 x W F : reachable c -> holds_list (c_heap c) (c_waiting c) W ->
  holds_list (c_heap c) (c_flushing c) F -> In x W \/ In x F ->
  cstep c t LMove c1 -> cexec c1 ls c2 -> cstep c2 u (LDrained u) c3 ->
  exists v, In (LFlush v x) ls \/ In (LClosed v x) ls.
Proof.
  intros R HW HF Hx H1 H2 H3. apply cinv_reachable in R as I. apply rep_holds in HW, HF.
  pose proof I as I0. destruct I as [(W' & F' & L) B O Li Ca Op X Ff S Nu].
  assert (Sx : stt (c_heap c x) = SWaiting \/ stt (c_heap c x) = SFlushing).
  { assert (U : forall l a b, rep (c_heap c) l a -> rep (c_heap c) l b -> a = b).
    { clear. assert (G : forall h p a b, lseg h p a None -> lseg h p b None -> first_or a None = first_or b None -> a = b).
      { intros h p a. revert p. induction a as [|y a IH]; intros p b Ha Hb E; [destruct b; auto; discriminate|].
        destruct b as [|z b]; [discriminate|]. simpl in E. injection E as <-. f_equal. simpl in Ha, Hb.
        destruct Ha as (_ & A1 & A2), Hb as (_ & B1 & B2). apply (IH (Some y) b A2 B2).
        rewrite A1 in B1. destruct a, b; simpl; auto. }
      intros l a b (A1 & _ & A3 & _) (B1 & _ & B3 & _). eapply G; eauto. congruence. }
    assert (W = W') by (eapply U; [exact HW|apply L]). assert (F = F') by (eapply U; [exact HF|apply L]). subst W' F'.
    destruct Hx as [Hx|Hx]; [left; apply (li_sw _ _ _ _ _ L); auto|right; apply (li_sf _ _ _ _ _ L); auto]. }
  destruct (cinv_step _ _ _ _ I0 H1) as (I1 & _).
  assert (S1 : stt (c_heap c1 x) = SFlushing).
  { inversion H1 as [| | | | | | | | | | | |fuel c' Ht Hs Hm E1 E2| | | | | |fuel c' Ht Hs Hn Hm E1 E2| | | | | | | | | | | | | | |]; subst;
      destruct (linv_move fuel c c' W' F' L Hm) as (h & w & f & -> & L' & St & Fr);
      assert (Y : stt (h x) = SFlushing) by (rewrite St; destruct Sx as [-> | ->]; auto).
    - match goal with |- stt (c_heap (if ?a then _ else _) x) = _ => destruct a; [exact Y|] end.
      match goal with |- stt (c_heap (if ?a then _ else _) x) = _ => destruct a; exact Y end.
    - exact Y. }
  destruct (turn_exec c1 ls c2 x I1 H2 S1) as [Y|Y]; auto. exfalso.
  pose proof (cinv_exec _ _ _ I1 H2) as I2. destruct (ci_l _ I2) as (W2 & F2 & L2).
  assert (He : empty (c_flushing c2) = true).
  { inversion H3; auto. }
  apply (li_sf _ _ _ _ _ L2) in Y. apply empty_head in He. destruct (li_f _ _ _ _ _ L2) as (Z & _).
  rewrite He in Z. destruct F2; [destruct Y|discriminate].
Qed.

(** ** Waiting *)
Lemma waits_rightly c t : reachable c ->
  (forall x, c_th c t = TWaitX x false -> exists u r, c_th c u = TBusy r x) /\
  (c_th c t = TWaitF false false -> dl_head (c_flushing c) = None /\ c_stop c = false) /\
  (c_th c t = TWaitS false -> exists u, running (c_th c u) = true).
Proof.
  intros H. apply cinv_reachable in H. destruct H as [L B O Li Ca Op X F S Nu]. split; [|split].
  - intros x Hx. apply X, B in Hx as (u & Hu). apply busy_of in Hu as (r & Hu). eauto.
  - intros Hx. destruct (F t Hx) as [A1 A2]. split; auto. apply empty_head. auto.
  - intros Hx. apply S in Hx. destruct Nu as (R & A & D & C). destruct R as [|u R]; [rewrite blen_nil in C; lia|].
    exists u. apply D. left. auto.
Qed.

Lemma move_terminates c : reachable c -> exists fuel c', move_all fuel c = Some c'.
Proof.
  intros H. apply cinv_reachable in H. destruct (ci_l _ H) as (W & F & L).
  destruct (li_w _ _ _ _ _ L) as (A1 & _ & A3 & _).
  destruct (mark_some W (length W) (c_heap c) None (Nat.le_refl _) A3) as (h & Hm).
  exists (length W). unfold move_all. rewrite A1, Hm.
  destruct (splice h (c_flushing c) (c_waiting c)) as [[h2 f2] w2]. eauto.
Qed.

(** ** The thread that moves stores *)
Definition is_first (s : tstate) : bool :=
  match s with
  | TTop true | TWaitF true _ | TLoop (Some true) | TBusy (Some true) _ => true
  | _ => false
  end.
Definition stopping (s : tstate) : bool :=
  match s with TStop | TWaitS _ | TJoin _ | TJoined | TLeave => true | _ => false end.

(** Without stop_all() nobody leaves run(). *)
Definition serving (c : ctx) : Prop :=
  c_stop c = false /\ (forall t, stopping (c_th c t) = false) /\
  (0 < c_num c -> exists t, is_first (c_th c t) = true).

Ltac others t u := unfold goto, wakes, set_num, set_t, set_stop, set_open, set_lists, wake_f, wake_w, upd;
  cbn [c_th]; destruct (N.eqb_spec u t) as [?|?].

Lemma unlink_th c x : (c_th (unlink c x) = c_th c \/ c_th (unlink c x) = wake_w (c_th c)) /\
  c_stop (unlink c x) = c_stop c /\ c_num (unlink c x) = c_num c.
Proof.
  unfold unlink. destruct (stt (c_heap c x)); auto.
  - destruct (dl_erase (c_heap c) (c_waiting c) x). cbn. auto.
  - destruct (dl_erase (c_heap c) (c_flushing c) x). cbn. auto.
Qed.
Lemma move_all_th fuel c c' : move_all fuel c = Some c' ->
  c_th c' = c_th c /\ c_stop c' = c_stop c /\ c_num c' = c_num c.
Proof.
  unfold move_all. destruct (mark fuel (c_heap c) (dl_head (c_waiting c))) as [h|]; [|discriminate].
  destruct (splice h (c_flushing c) (c_waiting c)) as [[h2 f2] w2]. intros H. injection H as <-. auto.
Qed.

(** What a step does to the threads, when there is no stop_all(): thread [t] goes to
    [s'], others are at most woken or, if idle, started. *)
Lemma step_threads c t l c' : cstep c t l c' -> c_stop c = false -> (forall u, stopping (c_th c u) = false) ->
  (forall u s, l <> LCall u s \/ s <> TStop) ->
  c_stop c' = false /\ (forall u, stopping (c_th c' u) = false) /\
  (forall u, is_first (c_th c u) = true -> is_first (c_th c' u) = true) /\
  (c_num c' = c_num c \/ (c_num c' = c_num c + 1 /\ is_first (c_th c' t) = (c_num c + 1 =? 1))) /\
  (forall u, is_first (c_th c' u) = true -> is_first (c_th c u) = true \/ (u = t /\ c_num c = 0)).
Proof.
  intros H Hs Hst Hl.
  assert (G : forall s s', c_th c t = s -> stopping s' = false -> is_first s' = is_first s ->
    (forall th', (forall u, u <> t -> th' u = c_th c u \/ th' u = wake_f (c_th c) u \/ th' u = wake_w (c_th c) u \/
                     (c_th c u = TIdle /\ th' u = TRun)) -> th' t = s' ->
       (forall u, stopping (th' u) = false) /\ (forall u, is_first (c_th c u) = true -> is_first (th' u) = true) /\
       (forall u, is_first (th' u) = true -> is_first (c_th c u) = true \/ (u = t /\ c_num c = 0)))).
  { intros s s' Ht Hs' Hf th' Ho Hth.
    assert (Q : forall u, u <> t -> stopping (th' u) = stopping (c_th c u) /\ is_first (th' u) = is_first (c_th c u)).
    { intros u Hu. destruct (Ho u Hu) as [-> |[-> |[-> |[E ->]]]]; auto; unfold wake_f, wake_w; [| |rewrite E; auto];
        destruct (c_th c u) as [ | | |f|f wo|r|r x| | |x|x|x wo| |wo|k| ]; auto. }
    split; [|split]; intros u; (destruct (N.eq_dec u t) as [->|Hu]; [rewrite Hth|destruct (Q u Hu) as [Q1 Q2]; rewrite ?Q1, ?Q2; auto]).
    - auto.
    - rewrite Ht, Hf. auto.
    - rewrite Ht, Hf. auto. }
  pose proof (Hst t) as Hstt.
  assert (P : forall c'' s s', c_th c t = s -> stopping s' = false -> is_first s' = is_first s ->
      c_stop c'' = false -> c_num c'' = c_num c ->
      (forall u, u <> t -> c_th c'' u = c_th c u \/ c_th c'' u = wake_f (c_th c) u \/ c_th c'' u = wake_w (c_th c) u \/
                     (c_th c u = TIdle /\ c_th c'' u = TRun)) -> c_th c'' t = s' ->
      c_stop c'' = false /\ (forall u, stopping (c_th c'' u) = false) /\
      (forall u, is_first (c_th c u) = true -> is_first (c_th c'' u) = true) /\
      (c_num c'' = c_num c \/ (c_num c'' = c_num c + 1 /\ is_first (c_th c'' t) = (c_num c + 1 =? 1))) /\
      (forall u, is_first (c_th c'' u) = true -> is_first (c_th c u) = true \/ (u = t /\ c_num c = 0))).
  { intros c'' s s' H1 H2 H3 H4 H5 H6 H7. destruct (G s s' H1 H2 H3 (c_th c'') H6 H7) as (A & B & C). auto 10. }
  destruct H as
    [s c' Ht Hk Hb|Ht Hs1|k Ht Hs1 Hk Hi|Ht|f Ht Hs1|Ht Hs1|Ht Hs1 He|Ht Hs1 He|f Ht|x Ht|Ht|Ht Hs1
    |fuel c' Ht Hs1 Hm|Ht Hs1 He|Ht Hs1|Ht Hs1 He|Ht|Ht Hs1|fuel c' Ht Hs1 Hn Hm|r Ht He|r x h l Ht Hh He|r x h l Ht He
    |x h l Ht He|x Ht Hx|x Ht Hx|x Ht Hx|x Ht Hx|Ht Hs1|Ht Hs1|Ht Hn|k Ht Hn Hk|Ht Hn Hk|k Ht Hk|Ht];
    rewrite ?Ht in Hstt; try discriminate Hstt; try congruence.
  - assert (E : c_th c' = c_th c /\ c_num c' = c_num c /\ c_stop c' = c_stop c) by (destruct Hb; auto).
    destruct E as (E1 & E2 & E3).
    eapply P; [exact Ht| | | | | |cbn [goto c_th]; apply upd_same]; cbn [goto c_stop c_num c_th]; try congruence.
    + destruct Hb; auto. destruct (Hl t TStop); congruence.
    + destruct Hb; auto.
    + intros u Hu. left. rewrite upd_other by auto. congruence.
  - eapply P; [exact Ht| | | | | |cbn [goto c_th]; apply upd_same]; auto. intros u Hu. left. cbn [goto c_th]. apply upd_other. auto.
  - eapply P; [exact Ht| | | | | |cbn [goto c_th]; apply upd_same]; auto. intros u Hu. cbn [goto set_t c_th]. rewrite upd_other by auto.
    unfold upd. destruct (N.eqb_spec u k) as [->|]; auto.
  - cbn [goto set_num c_stop c_num c_th]. split; auto. split; [|split; [|split]].
    + intros u. unfold upd. destruct (N.eqb_spec u t); auto.
    + intros u. unfold upd. destruct (N.eqb_spec u t) as [->|]; auto. rewrite Ht. discriminate.
    + right. split; auto. rewrite upd_same. simpl. destruct (c_num c + 1 =? 1); auto.
    + intros u. unfold upd. destruct (N.eqb_spec u t) as [->|]; auto. simpl. destruct (N.eqb_spec (c_num c + 1) 1); [|discriminate].
      intros _. right. split; auto. lia.
  - eapply P; [exact Ht| | | | | |cbn [goto c_th]; apply upd_same]; auto. intros u Hu. left. cbn [goto c_th]. apply upd_other. auto.
  - eapply P; [exact Ht| | | | | |cbn [goto c_th]; apply upd_same]; auto. intros u Hu. left. cbn [goto c_th]. apply upd_other. auto.
  - eapply P; [exact Ht| | | | | |cbn [goto c_th]; apply upd_same]; auto. intros u Hu. left. cbn [goto c_th]. apply upd_other. auto.
  - eapply P; [exact Ht| | | | | |cbn [goto c_th]; apply upd_same]; auto. intros u Hu. left. cbn [goto c_th]. apply upd_other. auto.
  - eapply P; [exact Ht| | | | | |cbn [goto c_th]; apply upd_same]; auto. intros u Hu. left. cbn [goto c_th]. apply upd_other. auto.
  - destruct (move_all_th _ _ _ Hm) as (E1 & E2 & E3).
    destruct (empty (c_flushing c')); [|destruct (1 <? c_num c')].
    + eapply P; [exact Ht| | | | | |cbn [goto c_th]; apply upd_same]; auto; cbn [goto wakes c_stop c_num c_th]; try congruence.
      intros u Hu. left. rewrite upd_other by auto. congruence.
    + eapply P; [exact Ht| | | | | |cbn [goto c_th]; apply upd_same]; auto; cbn [goto wakes c_stop c_num c_th]; try congruence.
      intros u Hu. right. left. rewrite upd_other by auto. congruence.
    + eapply P; [exact Ht| | | | | |cbn [goto c_th]; apply upd_same]; auto; cbn [goto wakes c_stop c_num c_th]; try congruence.
      intros u Hu. left. rewrite upd_other by auto. congruence.
  - eapply P; [exact Ht| | | | | |cbn [goto c_th]; apply upd_same]; auto. intros u Hu. left. cbn [goto c_th]. apply upd_other. auto.
  - eapply P; [exact Ht| | | | | |cbn [goto c_th]; apply upd_same]; auto. intros u Hu. left. cbn [goto c_th]. apply upd_other. auto.
  - eapply P; [exact Ht| | | | | |cbn [goto c_th]; apply upd_same]; auto. intros u Hu. left. cbn [goto c_th]. apply upd_other. auto.
  - destruct (move_all_th _ _ _ Hm) as (E1 & E2 & E3).
    eapply P; [exact Ht| | | | | |cbn [goto c_th]; apply upd_same]; auto; cbn [goto wakes c_stop c_num c_th]; try congruence.
    intros u Hu. left. rewrite upd_other by auto. congruence.
  - eapply P; [exact Ht| | | | | |cbn [goto c_th]; apply upd_same]; auto; try (destruct r; auto; fail).
    intros u Hu. left. cbn [goto c_th]. apply upd_other. auto.
  - eapply P; [exact Ht| | | | | |cbn [goto set_lists c_th]; apply upd_same]; auto.
    intros u Hu. left. cbn [goto set_lists c_th]. apply upd_other. auto.
  - eapply (P _ _ (TLoop r)); [exact Ht| | | | | |]; auto; cbn [wakes goto set_lists c_th].
    + intros u Hu. right. right. left. unfold wake_w. rewrite upd_other by auto. auto.
    + unfold wake_w. rewrite upd_same. auto.
  - eapply (P _ _ TIdle); [exact Ht| | | | | |]; auto; cbn [wakes goto set_open set_lists c_th].
    + intros u Hu. right. right. left. unfold wake_w. rewrite upd_other by auto. auto.
    + unfold wake_w. rewrite upd_same. auto.
  - destruct (unlink_th c x) as (E1 & E2 & E3).
    eapply P; [exact Ht| | | | | |cbn [goto c_th]; apply upd_same]; auto; cbn [goto c_stop c_num c_th]; try congruence.
    intros u Hu. rewrite upd_other by auto. destruct E1 as [-> | ->]; auto.
  - eapply P; [exact Ht| | | | | |cbn [goto c_th]; apply upd_same]; auto. intros u Hu. left. cbn [goto c_th]. apply upd_other. auto.
  - eapply P; [exact Ht| | | | | |cbn [goto c_th]; apply upd_same]; auto. intros u Hu. left. cbn [goto c_th]. apply upd_other. auto.
  - destruct (unlink_th c x) as (E1 & E2 & E3).
    eapply P; [exact Ht| | | | | |cbn [goto c_th]; apply upd_same]; auto; cbn [goto c_stop c_num c_th]; try congruence.
    intros u Hu. rewrite upd_other by auto. destruct E1 as [-> | ->]; auto.
Qed.

Lemma no_stop_label c t l c' ls : (forall u, ~ In (LCall u TStop) (l :: ls)) -> cstep c t l c' ->
  (forall u s, l <> LCall u s \/ s <> TStop) /\ (forall u, ~ In (LCall u TStop) ls).
Proof.
  intros H Hs. split.
  - intros u s. destruct l as [ |u' s'| | | | | | ]; try (left; discriminate).
    destruct s; try (right; discriminate). left. intros E. injection E as -> ->. apply (H u). left. auto.
  - intros u Hu. apply (H u). right. auto.
Qed.

Lemma serving_exec c ls c' : serving c -> cexec c ls c' -> (forall u, ~ In (LCall u TStop) ls) -> serving c'.
Proof.
  intros S H. revert S. induction H as [c|c t l c1 ls c2 H1 H2 IH]; intros (A & B & C) Hl; [repeat split; auto|].
  destruct (no_stop_label _ _ _ _ _ Hl H1) as [Hl1 Hl2].
  destruct (step_threads c t l c1 H1 A B Hl1) as (A' & B' & C' & D' & E').
  apply IH; auto. split; auto. split; auto. intros Hn. destruct D' as [D'|[D' F']].
  - rewrite D' in Hn. destruct (C Hn) as (u & Hu). eauto.
  - destruct (N.eq_dec (c_num c) 0) as [E|E].
    + exists t. rewrite F', E. reflexivity.
    + destruct C as (u & Hu); [lia|]. eauto.
Qed.

Lemma first_serves ls c : cexec ctx0 ls c -> (forall u, ~ In (LCall u TStop) ls) -> 0 < c_num c ->
  exists t, is_first (c_th c t) = true.
Proof.
  intros H Hl Hn. apply (serving_exec ctx0 ls c) in H; auto; [apply H; auto|].
  split; auto. split; auto. cbn. lia.
Qed.

(** ** Starvation *)
Definition starved (c : ctx) : Prop :=
  c_stop c = false /\ (forall t, stopping (c_th c t) = false) /\ 0 < c_num c /\
  (forall t, is_first (c_th c t) = false) /\ dl_head (c_flushing c) = None /\
  (forall t, match c_th c t with TLoop _ | TBusy _ _ => False | _ => True end).

Lemma unlink_flushing c x : dl_head (c_flushing c) = None -> cinv c -> stt (c_heap c x) <> SIntermediate ->
  dl_head (c_flushing (unlink c x)) = None.
Proof.
  intros He I Hx. destruct (ci_l _ I) as (W & F & L).
  destruct (linv_unlink c x W F L Hx) as (h & w & f & W' & F' & L' & Hu & St & Fr & Em).
  assert (E : c_flushing (unlink c x) = f) by (destruct Hu as [-> | ->]; reflexivity).
  rewrite E. apply empty_head, Em, empty_head. auto.
Qed.

Lemma starved_step c t l c' : cinv c -> starved c -> cstep c t l c' -> (forall u s, l <> LCall u s \/ s <> TStop) ->
  starved c' /\ forall u x, l <> LFlush u x.
Proof.
  intros I (A & B & N0 & F & E & G) H Hl.
  destruct (step_threads c t l c' H A B Hl) as (A' & B' & C' & D' & E').
  assert (X : dl_head (c_flushing c') = None /\
    (forall u, match c_th c' u with TLoop _ | TBusy _ _ => False | _ => True end) /\ forall u x, l <> LFlush u x).
  { pose proof (F t) as Ft. pose proof (G t) as Gt.
    assert (Q : forall c'' s', c_th c'' t = s' -> match s' with TLoop _ | TBusy _ _ => False | _ => True end ->
      (forall u, u <> t -> c_th c'' u = c_th c u \/ c_th c'' u = wake_f (c_th c) u \/ c_th c'' u = wake_w (c_th c) u \/
                     c_th c'' u = TRun) ->
      forall u, match c_th c'' u with TLoop _ | TBusy _ _ => False | _ => True end).
    { intros c'' s' H1 H2 H3 u. destruct (N.eq_dec u t) as [->|Hu]; [rewrite H1; auto|].
      specialize (G u). destruct (H3 u Hu) as [-> |[-> |[-> | ->]]]; auto; unfold wake_f, wake_w; destruct (c_th c u); auto. }
    assert (Em : empty (c_flushing c) = true) by (apply empty_head; auto).
    pose proof (B t) as Bt.
    destruct H as
      [s c' Ht Hk Hb|Ht Hs1|k Ht Hs1 Hk Hi|Ht|f Ht Hs1|Ht Hs1|Ht Hs1 He|Ht Hs1 He|f Ht|x Ht|Ht|Ht Hs1
      |fuel c' Ht Hs1 Hm|Ht Hs1 He|Ht Hs1|Ht Hs1 He|Ht|Ht Hs1|fuel c' Ht Hs1 Hn Hm|r Ht He|r x h l Ht Hh He|r x h l Ht He
      |x h l Ht He|x Ht Hx|x Ht Hx|x Ht Hx|x Ht Hx|Ht Hs1|Ht Hs1|Ht Hn|k Ht Hn Hk|Ht Hn Hk|k Ht Hk|Ht];
      rewrite ?Ht in Ft, Gt, Bt; try discriminate Ft; try discriminate Bt; try contradiction; try congruence; try lia.
    - assert (E1 : c_th c' = c_th c /\ c_flushing c' = c_flushing c) by (destruct Hb; auto). destruct E1 as [E1 E2].
      split; [cbn; congruence|]. split; [|discriminate].
      apply (Q _ s); [cbn [goto c_th]; apply upd_same|destruct Hb; auto|].
      intros u Hu. left. cbn [goto c_th]. rewrite upd_other by auto. congruence.
    - split; auto. split; [|discriminate]. eapply Q; [cbn [goto c_th]; apply upd_same|exact Logic.I|].
      intros u Hu. left. cbn [goto c_th]. apply upd_other. auto.
    - split; auto. split; [|discriminate]. eapply Q; [cbn [goto c_th]; apply upd_same|exact Logic.I|].
      intros u Hu. cbn [goto set_t c_th]. rewrite upd_other by auto. unfold upd. destruct (N.eqb_spec u k); auto.
    - split; auto. split; [|discriminate]. eapply Q; [cbn [goto c_th]; apply upd_same|exact Logic.I|].
      intros u Hu. left. cbn [goto c_th]. apply upd_other. auto.
    - split; auto. split; [|discriminate]. eapply Q; [cbn [goto c_th]; apply upd_same|exact Logic.I|].
      intros u Hu. left. cbn [goto c_th]. apply upd_other. auto.
    - split; auto. split; [|discriminate]. eapply Q; [cbn [goto c_th]; apply upd_same|exact Logic.I|].
      intros u Hu. left. cbn [goto c_th]. apply upd_other. auto.
    - split; auto. split; [|discriminate]. eapply Q; [cbn [goto c_th]; apply upd_same|exact Logic.I|].
      intros u Hu. left. cbn [goto c_th]. apply upd_other. auto.
    - split; auto. split; [|discriminate]. eapply Q; [cbn [goto c_th]; apply upd_same|exact Logic.I|].
      intros u Hu. left. cbn [goto c_th]. apply upd_other. auto.
    - split; auto. split; [|discriminate]. eapply Q; [cbn [goto c_th]; apply upd_same|exact Logic.I|].
      intros u Hu. left. cbn [goto c_th]. apply upd_other. auto.
    - split; auto. split; [|discriminate]. apply (Q _ TIdle).
      + cbn [wakes goto set_open set_lists c_th]. unfold wake_w. rewrite upd_same. auto.
      + exact Logic.I.
      + intros u Hu. right. right. left. cbn [wakes goto set_open set_lists c_th]. unfold wake_w. rewrite upd_other; auto.
    - split; [apply unlink_flushing; auto|]. split; [|discriminate]. eapply Q; [cbn [goto c_th]; apply upd_same|exact Logic.I|].
      intros u Hu. cbn [goto c_th]. rewrite upd_other by auto. destruct (unlink_th c x) as ([-> | ->] & _); auto.
    - split; auto. split; [|discriminate]. eapply Q; [cbn [goto c_th]; apply upd_same|exact Logic.I|].
      intros u Hu. left. cbn [goto c_th]. apply upd_other. auto.
    - split; auto. split; [|discriminate]. eapply Q; [cbn [goto c_th]; apply upd_same|exact Logic.I|].
      intros u Hu. left. cbn [goto c_th]. apply upd_other. auto.
    - split; [apply unlink_flushing; auto|]. split; [|discriminate]. eapply Q; [cbn [goto c_th]; apply upd_same|exact Logic.I|].
      intros u Hu. cbn [goto c_th]. rewrite upd_other by auto. destruct (unlink_th c x) as ([-> | ->] & _); auto. }
  destruct X as (X1 & X2 & X3). split; auto. split; auto. split; auto. split; [destruct D' as [D'|[D' _]]; lia|].
  split; [|split; auto]. intros u. destruct (is_first (c_th c' u)) eqn:Eu; auto.
  apply E' in Eu as [Eu|[_ Eu]]; [rewrite F in Eu; auto|lia].
Qed.

Lemma starved_exec c ls c' : cinv c -> starved c -> cexec c ls c' -> (forall u, ~ In (LCall u TStop) ls) ->
  forall u x, ~ In (LFlush u x) ls.
Proof.
  intros I S H. revert I S. induction H as [c|c t l c1 ls c2 H1 H2 IH]; intros I S Hl u x; [auto|].
  destruct (no_stop_label _ _ _ _ _ Hl H1) as [Hl1 Hl2].
  destruct (starved_step c t l c1 I S H1 Hl1) as (S' & N).
  intros [E|E]; [exact (N u x E)|]. revert E. apply IH; auto. eapply cinv_step; eauto.
Qed.
