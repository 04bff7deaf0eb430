(** What safely linearizable histories (SpecFail.v) are like. *)
From Verif Require Import Model.Bytes Spec SpecLin SpecDurable SpecFail Proofs.BytesFacts Proofs.LinFacts.

(** No stop, and neither a call nor an answer of thread [t]. *)
Definition stop_free (h : list fev) : Prop := ~ In (FDev DStop) h.
Definition silent (t : N) (ev : fev) : Prop :=
  match ev with FDev (DEv v) => who v <> t | FDev DStop => False | _ => True end.
Definition fquiet (t : N) (h : list fev) : Prop := Forall (silent t) h.

Lemma fquiet_free t h : fquiet t h -> stop_free h.
Proof. intros H Hi. unfold fquiet in H. rewrite Forall_forall in H. exact (H _ Hi). Qed.
Lemma stop_free_app a b : stop_free a -> stop_free b -> stop_free (a ++ b).
Proof. unfold stop_free. intros H1 H2 X. apply in_app_iff in X. tauto. Qed.

(** ** Taking executions apart *)
Lemma fstep_short s h s' : fstep s h s' -> h = [] \/ exists ev, h = [ev].
Proof. intros H. inversion H; subst; eauto. Qed.

Lemma fruns_split s h s' : fruns s h s' -> forall h1 h2, h = h1 ++ h2 ->
  exists s1, fruns s h1 s1 /\ fruns s1 h2 s'.
Proof.
  induction 1 as [s|s h s1 h' s2 H IH Hs]; intros h1 h2 E.
  - symmetry in E. apply app_eq_nil in E as [-> ->]. exists s. split; apply fr_nil.
  - destruct (fstep_short _ _ _ Hs) as [->|(ev & ->)].
    + rewrite app_nil_r in E. destruct (IH _ _ E) as (s3 & H1 & H2). exists s3. split; auto.
      rewrite <- (app_nil_r h2). eapply fr_step; eauto.
    + destruct (@exists_last _ (h1 ++ h2)) as (l & z & El); [destruct h; rewrite <- E; discriminate|].
      destruct h2 as [|y h2].
      * rewrite app_nil_r in E. subst h1. exists s2. split; [eapply fr_step; eauto|apply fr_nil].
      * destruct (@exists_last _ (y :: h2)) as (l2 & z2 & E2); [discriminate|]. rewrite E2 in *.
        rewrite app_assoc in E. apply app_inj_tail in E as [E <-].
        destruct (IH _ _ E) as (s3 & H1 & H2). exists s3. split; auto. eapply fr_step; eauto.
Qed.

Lemma fruns_join s h s1 : fruns s h s1 -> forall h' s2, fruns s1 h' s2 -> fruns s (h ++ h') s2.
Proof.
  intros H1 h' s2 H2. induction H2 as [s1|s1 h' s2 h'' s3 H2 IH Hs]; [rewrite app_nil_r; auto|].
  rewrite app_assoc. eapply fr_step; eauto.
Qed.

Lemma fruns_ev s ev h s' : fruns s (ev :: h) s' ->
  exists s1 s2, fruns s [] s1 /\ fstep s1 [ev] s2 /\ fruns s2 h s'.
Proof.
  intros H. destruct (fruns_split _ _ _ H [ev] h eq_refl) as (sa & H1 & H2).
  assert (X : forall s l sa, fruns s l sa -> l = [ev] -> exists s1 s2, fruns s [] s1 /\ fstep s1 [ev] s2 /\ fruns s2 [] sa).
  { clear. intros s l sa H. induction H as [s|s h s1 h' s2 H IH Hs]; intros E; [discriminate|].
    destruct (fstep_short _ _ _ Hs) as [->|(ev' & ->)].
    - rewrite app_nil_r in E. destruct (IH E) as (a & b & A1 & A2 & A3). exists a, b. splits; auto.
      change (@nil fev) with (@nil fev ++ []). eapply fr_step; eauto.
    - apply (app_inj_tail h []) in E as [-> <-]. exists s1, s2. splits; auto. apply fr_nil. }
  destruct (X _ _ _ H1 eq_refl) as (a & b & A1 & A2 & A3). exists a, b. splits; auto.
  exact (fruns_join _ _ _ A3 _ _ H2).
Qed.

(** Something that every step keeps. *)
Lemma fruns_keeps (E : fev -> Prop) (P : fst_t -> Prop) :
  (forall s h s', P s -> Forall E h -> fstep s h s' -> P s') ->
  forall s h s', fruns s h s' -> Forall E h -> P s -> P s'.
Proof.
  intros HP s h s' H. induction H as [s|s h s1 h' s2 H IH Hs]; intros HE H0; auto.
  apply Forall_app in HE as [HE1 HE2]. eauto.
Qed.
Lemma fruns_hist (P : list fev -> fst_t -> Prop) :
  (forall h0 s h s', P h0 s -> fstep s h s' -> P (h0 ++ h) s') ->
  forall s h s', fruns s h s' -> forall h0, P h0 s -> P (h0 ++ h) s'.
Proof.
  intros HP s h s' H. induction H as [s|s h s1 h' s2 H IH Hs]; intros h0 H0; [rewrite app_nil_r; auto|].
  rewrite app_assoc. eapply HP; eauto.
Qed.

Definition not_stop (ev : fev) : Prop := ev <> FDev DStop.
Lemma stop_free_all h : stop_free h <-> Forall not_stop h.
Proof.
  unfold stop_free, not_stop. rewrite Forall_forall. split.
  - intros H ev Hi ->. auto.
  - intros H Hi. exact (H _ Hi eq_refl).
Qed.
Lemma no_event (E : fev -> Prop) : Forall E [].
Proof. constructor. Qed.

Ltac stops HE := exfalso; inversion HE as [|? ? X Y]; subst; first [exact X|exact (X eq_refl)].
Ltac at_thread t u := unfold lset; destruct (N.eqb_spec t u) as [->|].

(** ** What is in the map stays there *)
Lemma step_map_keeps k v s h s' : f_map s k = Some v -> Forall not_stop h -> fstep s h s' -> f_map s' k = Some v.
Proof.
  intros Hk HE Hs. inversion Hs; subst; cbn [f_map] in *; auto; try (stops HE). apply spec_keeps; auto.
Qed.
Lemma map_keeps k v s h s' : fruns s h s' -> stop_free h -> f_map s k = Some v -> f_map s' k = Some v.
Proof.
  intros H Hf. apply stop_free_all in Hf. revert H Hf. apply (fruns_keeps not_stop (fun s => f_map s k = Some v)).
  intros; eapply step_map_keeps; eauto.
Qed.

Definition held k v (s : fst_t) : Prop :=
  f_map s k = Some v /\ forall m1, f_flush s = Some m1 -> m1 k = Some v.
Lemma held_keeps k v s h s' : fruns s h s' -> stop_free h -> held k v s -> held k v s'.
Proof.
  intros H Hf. apply stop_free_all in Hf. revert H Hf. apply (fruns_keeps not_stop (held k v)).
  clear s h s'. intros s h s' [H1 H2] HE Hs. split; [eapply step_map_keeps; eauto|].
  inversion Hs; subst; cbn [f_map f_flush] in *; auto; try (stops HE).
  - intros m1 E. injection E as <-. auto.
  - discriminate.
Qed.

Definition kept k v (s : fst_t) : Prop := held k v s /\ f_saved s k = Some v.
Lemma kept_keeps k v s h s' : fruns s h s' -> kept k v s -> kept k v s'.
Proof.
  intros H. refine (fruns_keeps (fun _ => True) (kept k v) _ _ _ _ H _); [|apply Forall_forall; auto].
  clear s h s' H. intros s h s' [[H1 H2] H3] _ Hs. unfold kept, held.
  inversion Hs; subst; cbn [f_map f_flush f_saved] in *; splits; auto; try discriminate.
  - apply spec_keeps; auto.
  - intros m1 E. injection E as <-. auto.
Qed.

(** ** Inserts and fetches *)
Lemma insert_done t k v r h1 h2 s s' :
  fruns s (FDev (DEv (HCall t (OpInsert k v))) :: h1 ++ FDev (DEv (HRet t r)) :: h2) s' -> fquiet t h1 -> r <> OOther ->
  exists v' s1, (r = OInserted -> v' = v) /\ f_map s1 k = Some v' /\ fruns s1 h2 s'.
Proof.
  intros H Hq Hr. apply fruns_ev in H as (a & b & _ & Hc & H).
  destruct (fruns_split _ _ _ H h1 _ eq_refl) as (c & H1 & H2). apply fruns_ev in H2 as (d & g & H3 & Hd & H4).
  set (J := fun s => f_th s t = LPending (OpInsert k v) \/ f_th s t = LDone OOther \/
    exists v', f_map s k = Some v' /\ (f_th s t = LDone OKeyExists \/ f_th s t = LDone OInserted /\ v' = v)).
  assert (Jstep : forall s h s', J s -> Forall (silent t) h -> fstep s h s' -> J s').
  { clear - J. intros s h s' HJ HE Hs. unfold J in *.
    inversion Hs as [m d o x f u c Hf|m d o x f u c Hf|m d o x f u c Hf|m d o x f u Hf|m d o f u c Hf| | | | | ];
      subst; cbn [f_map f_th] in *; auto; try (stops HE).
    - inversion HE; subst. cbn [silent who] in *. unfold lset. destruct (N.eqb_spec t u); [congruence|exact HJ].
    - unfold lset. destruct (N.eqb_spec t u) as [->|].
      + right. right. destruct HJ as [HJ|[HJ|(v' & _ & [HJ|(HJ & _)])]]; rewrite HJ in Hf; try discriminate.
        injection Hf as <-. cbn [spec_step]. destruct (m k) as [v'|] eqn:E; cbn [fst snd].
        * exists v'. auto.
        * exists v. unfold sput. rewrite beq_refl. auto.
      + destruct HJ as [HJ|[HJ|(v' & H1 & HJ)]]; auto. right. right. exists v'. split; auto. apply spec_keeps; auto.
    - inversion HE; subst. cbn [silent who] in *. unfold lset. destruct (N.eqb_spec t u); [congruence|exact HJ].
    - unfold lset. destruct (N.eqb_spec t u) as [->|]; [auto|exact HJ].
    - unfold lset. destruct (N.eqb_spec t u) as [->|]; [auto|exact HJ]. }
  assert (Jd : J d).
  { eapply (fruns_keeps (silent t) J Jstep); [exact H3|constructor|].
    eapply (fruns_keeps (silent t) J Jstep); [exact H1|exact Hq|].
    inversion Hc; subst. left. cbn [f_th]. unfold lset. rewrite N.eqb_refl. auto. }
  inversion Hd as [|? ? ? ? ? ? ?|m0 d0 o0 x0 f0 u0 r0 Hf| | | | | | |]; subst. cbn [f_th f_map] in *. unfold J in Jd. cbn [f_th f_map] in Jd.
  destruct Jd as [E|[E|(v' & Ek & Ed)]]; try congruence.
  exists v', (FSt m0 d0 o0 x0 (lset f0 t LIdle)). splits; auto.
  destruct Ed as [E|(E & ->)]; [|auto]. rewrite Hf in E. injection E as ->. discriminate.
Qed.

Lemma fetch_done u k v r h1 h2 s s' :
  fruns s (FDev (DEv (HCall u (OpFetch k))) :: h1 ++ FDev (DEv (HRet u r)) :: h2) s' -> fquiet u h1 -> f_map s k = Some v ->
  r = OFound v \/ r = OOther.
Proof.
  intros H Hq Hk. apply fruns_ev in H as (a & b & Ha & Hc & H).
  destruct (fruns_split _ _ _ H h1 _ eq_refl) as (c & H1 & H2). apply fruns_ev in H2 as (d & g & H3 & Hd & H4).
  apply (map_keeps k v) in Ha; [|intros []|exact Hk].
  set (J := fun s => f_map s k = Some v /\ (f_th s u = LPending (OpFetch k) \/ f_th s u = LDone OOther \/ f_th s u = LDone (OFound v))).
  assert (Jstep : forall s h s', J s -> Forall (silent u) h -> fstep s h s' -> J s').
  { clear - J. intros s h s' [Hm HJ] HE Hs. split.
    { refine (step_map_keeps _ _ _ _ _ Hm _ Hs). refine (Forall_impl _ _ HE). intros ev Hev ->. exact Hev. }
    inversion Hs as [m d o x f t c Hf|m d o x f t c Hf|m d o x f t c Hf|m d o x f t Hf|m d o f t c Hf| | | | | ];
      subst; cbn [f_map f_th] in *; auto; try (stops HE).
    - inversion HE; subst. cbn [silent who] in *. unfold lset. destruct (N.eqb_spec u t); [congruence|exact HJ].
    - unfold lset. destruct (N.eqb_spec u t) as [->|]; [|exact HJ].
      destruct HJ as [HJ|[HJ|HJ]]; rewrite HJ in Hf; try discriminate.
      injection Hf as <-. cbn [spec_step]. rewrite Hm. auto.
    - inversion HE; subst. cbn [silent who] in *. unfold lset. destruct (N.eqb_spec u t); [congruence|exact HJ].
    - unfold lset. destruct (N.eqb_spec u t) as [->|]; [auto|exact HJ].
    - unfold lset. destruct (N.eqb_spec u t) as [->|]; [auto|exact HJ]. }
  assert (Jd : J d).
  { eapply (fruns_keeps (silent u) J Jstep); [exact H3|constructor|].
    eapply (fruns_keeps (silent u) J Jstep); [exact H1|exact Hq|].
    inversion Hc; subst. split; [exact Ha|]. left. cbn [f_th]. unfold lset. rewrite N.eqb_refl. auto. }
  destruct Jd as [_ Jd]. inversion Hd as [|? ? ? ? ? ? ?|m0 d0 o0 x0 f0 u0 r0 Hf| | | | | | |]; subst. cbn [f_th] in *.
  destruct Jd as [E|[E|E]]; rewrite Hf in E; try discriminate; injection E as ->; auto.
Qed.

(** An insert that has been answered without error is found until the machine stops, ... *)
Lemma unsaved_found t k v r u r' h1 h2 h3 h4 h5 :
  safely_linearizable
    (h1 ++ FDev (DEv (HCall t (OpInsert k v))) :: h2 ++ FDev (DEv (HRet t r)) :: h3 ++
     FDev (DEv (HCall u (OpFetch k))) :: h4 ++ FDev (DEv (HRet u r')) :: h5) ->
  fquiet t h2 -> stop_free h3 -> fquiet u h4 -> r <> OOther -> r' <> OOther ->
  exists v', r' = OFound v' /\ (r = OInserted -> v' = v).
Proof.
  intros (s & H) Q2 Q3 Q4 Hr Hr'.
  destruct (fruns_split _ _ _ H h1 _ eq_refl) as (s1 & _ & H1).
  destruct (insert_done _ _ _ _ _ _ _ _ H1 Q2 Hr) as (v' & s2 & Hv & Hk & H2).
  destruct (fruns_split _ _ _ H2 h3 _ eq_refl) as (s3 & H3 & H4).
  pose proof (map_keeps _ _ _ _ _ H3 Q3 Hk) as Hk'.
  destruct (fetch_done _ _ _ _ _ _ _ _ H4 Q4 Hk') as [->|]; [|contradiction]. eauto.
Qed.

(** ... and for ever once it has been saved. *)
Lemma saved_found t k v r u r' h1 h2 h3 h4 h5 h6 h7 :
  safely_linearizable
    (h1 ++ FDev (DEv (HCall t (OpInsert k v))) :: h2 ++ FDev (DEv (HRet t r)) :: h3 ++ FDev DBegin :: h4 ++ FDev DEnd :: h5 ++
     FDev (DEv (HCall u (OpFetch k))) :: h6 ++ FDev (DEv (HRet u r')) :: h7) ->
  fquiet t h2 -> stop_free h3 -> stop_free h4 -> fquiet u h6 -> r <> OOther -> r' <> OOther ->
  exists v', r' = OFound v' /\ (r = OInserted -> v' = v).
Proof.
  intros (s & H) Q2 Q3 Q4 Q6 Hr Hr'.
  destruct (fruns_split _ _ _ H h1 _ eq_refl) as (s1 & _ & H1).
  destruct (insert_done _ _ _ _ _ _ _ _ H1 Q2 Hr) as (v' & s2 & Hv & Hk & H2).
  destruct (fruns_split _ _ _ H2 h3 _ eq_refl) as (s3 & H3 & H4).
  pose proof (map_keeps _ _ _ _ _ H3 Q3 Hk) as Hk3.
  apply fruns_ev in H4 as (s4 & s5 & H4 & Hb & H5).
  pose proof (map_keeps _ _ _ _ _ H4 (fun X : In _ [] => X) Hk3) as Hk4.
  assert (Hh : held k v' s5).
  { inversion Hb; subst. cbn [f_map] in Hk4. split; [exact Hk4|]. cbn [f_flush]. intros m1 E. injection E as <-. exact Hk4. }
  destruct (fruns_split _ _ _ H5 h4 _ eq_refl) as (s6 & H6 & H7).
  pose proof (held_keeps _ _ _ _ _ H6 Q4 Hh) as Hh6.
  apply fruns_ev in H7 as (s7 & s8 & H7 & He & H8).
  pose proof (held_keeps _ _ _ _ _ H7 (fun X : In _ [] => X) Hh6) as Hh7.
  assert (Hkp : kept k v' s8).
  { inversion He; subst. destruct Hh7 as [X1 X2]. cbn [f_map f_flush] in *. unfold kept, held. cbn [f_map f_flush f_saved].
    splits; auto. discriminate. }
  destruct (fruns_split _ _ _ H8 h5 _ eq_refl) as (s9 & H9 & H10).
  pose proof (kept_keeps _ _ _ _ _ H9 Hkp) as [[Hk9 _] _].
  destruct (fetch_done _ _ _ _ _ _ _ _ H10 Q6 Hk9) as [->|]; [|contradiction]. eauto.
Qed.

(** ** Errors have a cause *)
(** A flush has failed since the last stop. *)
Definition flush_has_failed (h : list fev) : Prop := exists a b, h = a ++ FErr :: b /\ stop_free b.

Lemma has_failed_more h h' : flush_has_failed h -> stop_free h' -> flush_has_failed (h ++ h').
Proof.
  intros (a & b & -> & Hb) H'. exists a, (b ++ h'). split; [rewrite <- app_assoc; reflexivity|apply stop_free_app; auto].
Qed.
Lemma free_one ev : ev <> FDev DStop -> stop_free [ev].
Proof. intros H [E|[]]. auto. Qed.

Lemma bad_failed s h s' : fruns s h s' -> forall h0, (f_bad s = true -> flush_has_failed h0) ->
  f_bad s' = true -> flush_has_failed (h0 ++ h).
Proof.
  intros H. refine (fruns_hist (fun h s => f_bad s = true -> flush_has_failed h) _ s h s' H).
  clear s h s' H. intros h0 s h s' IH Hs Hb.
  inversion Hs; subst; cbn [f_bad] in *; try discriminate;
    try (apply has_failed_more; [solve [auto]|apply free_one; discriminate]);
    try (rewrite app_nil_r; solve [auto]).
  all: exists h0, []; split; [reflexivity|intros []].
Qed.

Lemma error_cause t c h1 h2 h3 :
  safely_linearizable (h1 ++ FDev (DEv (HCall t c)) :: h2 ++ FDev (DEv (HRet t OOther)) :: h3) -> fquiet t h2 ->
  In (FFail t) h2 \/ flush_has_failed (h1 ++ FDev (DEv (HCall t c)) :: h2).
Proof.
  intros (s & H) Hq.
  destruct (fruns_split _ _ _ H h1 _ eq_refl) as (s1 & H1 & H2). apply fruns_ev in H2 as (a & b & Ha & Hc & H2).
  destruct (fruns_split _ _ _ H2 h2 _ eq_refl) as (d0 & H3 & H4). apply fruns_ev in H4 as (d & g & H4 & Hd & _).
  assert (Hb : f_bad b = true -> flush_has_failed (h1 ++ [FDev (DEv (HCall t c))])).
  { intros E. rewrite <- (app_nil_r h1), <- app_assoc.
    refine (bad_failed _ _ _ (fruns_join _ _ _ Ha _ _ (fr_step _ _ _ _ _ (fr_nil _) Hc)) h1 _ E).
    intros E1. exact (bad_failed _ _ _ H1 [] (fun X => ltac:(discriminate X)) E1). }
  set (J := fun (hh : list fev) s => (f_bad s = true -> flush_has_failed (h1 ++ [FDev (DEv (HCall t c))] ++ hh)) /\
    (f_th s t = LPending c \/ exists r, f_th s t = LDone r /\
      (r = OOther -> In (FFail t) hh \/ flush_has_failed (h1 ++ [FDev (DEv (HCall t c))] ++ hh)))).
  assert (Jstep : forall hh s h s', J hh s -> Forall (silent t) h -> fstep s h s' -> J (hh ++ h) s').
  { clear - J. intros hh s h s' [HB HJ] HE Hs.
    assert (Hfree : stop_free h) by (exact (fquiet_free _ _ HE)).
    assert (HB' : f_bad s = true -> flush_has_failed (h1 ++ [FDev (DEv (HCall t c))] ++ hh ++ h)).
    { intros E. rewrite !app_assoc. apply has_failed_more; auto. rewrite <- !app_assoc. auto. }
    assert (HJ' : f_th s t = LPending c \/ exists r, f_th s t = LDone r /\
      (r = OOther -> In (FFail t) (hh ++ h) \/ flush_has_failed (h1 ++ [FDev (DEv (HCall t c))] ++ hh ++ h))).
    { destruct HJ as [HJ|(r & HJ & X)]; [auto|]. right. exists r. split; auto. intros Er.
      destruct (X Er) as [Y|Y]; [left; apply in_app_iff; auto|right].
      rewrite !app_assoc. apply has_failed_more; auto. rewrite <- !app_assoc. auto. }
    clear HB HJ. unfold J.
    inversion Hs as [m d o x f u c0 Hf|m d o x f u c0 Hf|m d o x f u r Hf|m d o x f u Hf|m d o f u c0 Hf| | | | | ];
      subst; cbn [f_map f_th f_bad] in *; (split; [auto; try discriminate|]); auto; try (stops HE).
    - inversion HE; subst. cbn [silent who] in *. unfold lset. destruct (N.eqb_spec t u); [congruence|exact HJ'].
    - unfold lset. destruct (N.eqb_spec t u) as [->|]; [|exact HJ']. right. eexists. split; [reflexivity|].
      intros E. exfalso. revert E. destruct c0 as [k v|k| |]; cbn [spec_step snd]; try discriminate;
        destruct (m k); discriminate.
    - inversion HE; subst. cbn [silent who] in *. unfold lset. destruct (N.eqb_spec t u); [congruence|exact HJ'].
    - unfold lset. destruct (N.eqb_spec t u) as [->|]; [|exact HJ']. right. eexists. split; [reflexivity|].
      intros _. left. apply in_app_iff. right. left. auto.
    - unfold lset. destruct (N.eqb_spec t u) as [->|]; [|exact HJ']. right. eexists. split; [reflexivity|].
      intros _. right. auto.
    - intros _. exists (h1 ++ [FDev (DEv (HCall t c))] ++ hh), []. split; [rewrite <- !app_assoc; reflexivity|intros []]. }
  assert (Jruns : forall s h s', fruns s h s' -> forall hh, Forall (silent t) h -> J hh s -> J (hh ++ h) s').
  { clear - Jstep. intros s h s' H. induction H as [s|s h s1 h' s2 H IH Hs]; intros hh HE HJ; [rewrite app_nil_r; auto|].
    apply Forall_app in HE as [E1 E2]. rewrite app_assoc. eapply Jstep; eauto. }
  assert (Jd : J h2 d).
  { rewrite <- (app_nil_r h2). eapply Jruns; [exact H4|constructor|].
    rewrite <- (app_nil_l h2). eapply Jruns; [exact H3|exact Hq|].
    split; [exact Hb|]. left. inversion Hc; subst. cbn [f_th]. unfold lset. rewrite N.eqb_refl. auto. }
  destruct Jd as [_ Jd]. inversion Hd as [|? ? ? ? ? ? ?|m0 d1 o0 x0 f0 u0 r0 Hf| | | | | | |]; subst. cbn [f_th] in *.
  destruct Jd as [E|(r & E & X)]; rewrite Hf in E; [discriminate|]. injection E as <-. exact (X eq_refl).
Qed.

(** ** What is found was inserted, without error *)
Section Took.
Variables (k v : bytes).

(** The first thing heard of [u] in [b] is that an insert has succeeded, or there is a stop
    before that. *)
Definition settles (u : N) (b : list fev) : Prop :=
  exists b1 ev b2, b = b1 ++ ev :: b2 /\ fquiet u b1 /\ (ev = FDev (DEv (HRet u OInserted)) \/ ev = FDev DStop).
Definition settling (u : N) (b : list fev) (f : N -> lst) : Prop :=
  fquiet u b /\ f u = LDone OInserted \/ settles u b.
Definition took (h : list fev) (f : N -> lst) : Prop :=
  exists u a b, h = a ++ FDev (DEv (HCall u (OpInsert k v))) :: b /\ settling u b f.

Lemma settling_step u b s h' s' : settling u b (f_th s) -> fstep s h' s' -> settling u (b ++ h') (f_th s').
Proof using Type.
  intros H Hs. unfold settling in *. destruct H as [[Hq Hu]|(b1 & ev & b2 & -> & Hq & He)].
  2: { right. exists b1, ev, (b2 ++ h'). split; [rewrite <- app_assoc; reflexivity|auto]. }
  assert (Q : forall ev, silent u ev -> fquiet u (b ++ [ev])).
  { intros ev X. apply Forall_app. split; [exact Hq|repeat constructor; exact X]. }
  assert (St : settles u (b ++ [FDev DStop])) by (exists b, (FDev DStop), []; splits; auto).
  inversion Hs as [m d o x f t c Hf|m d o x f t c Hf|m d o x f t r Hf|m d o x f t Hf|m d o f t c Hf| | | | | ];
    subst; cbn [f_map f_th f_bad] in *; auto; try (left; split; [apply Q; exact I|exact Hu]); rewrite ?app_nil_r.
  - destruct (N.eq_dec u t) as [->|Hn]; [congruence|]. left. split; [apply Q; cbn; auto|].
    unfold lset. destruct (N.eqb_spec u t); [congruence|auto].
  - destruct (N.eq_dec u t) as [->|Hn]; [congruence|]. left. split; [auto|].
    unfold lset. destruct (N.eqb_spec u t); [congruence|auto].
  - destruct (N.eq_dec u t) as [->|Hn].
    + right. rewrite Hu in Hf. injection Hf as <-. exists b. do 2 eexists. splits; eauto.
    + left. split; [apply Q; cbn; auto|]. unfold lset. destruct (N.eqb_spec u t); [congruence|auto].
  - destruct (N.eq_dec u t) as [->|Hn]; [rewrite Hu in Hf; exfalso; exact (Hf eq_refl)|]. left. split; [apply Q; cbn; auto|].
    unfold lset. destruct (N.eqb_spec u t); [congruence|auto].
  - destruct (N.eq_dec u t) as [->|Hn]; [congruence|]. left. split; [auto|].
    unfold lset. destruct (N.eqb_spec u t); [congruence|auto].
Qed.
Lemma took_step h s h' s' : took h (f_th s) -> fstep s h' s' -> took (h ++ h') (f_th s').
Proof using Type.
  intros (u & a & b & -> & H) Hs. exists u, a, (b ++ h'). split; [rewrite <- app_assoc; reflexivity|].
  eapply settling_step; eauto.
Qed.

Lemma first_loud u b1 ev b2 b1' ev' b2' : b1 ++ ev :: b2 = b1' ++ ev' :: b2' ->
  fquiet u b1 -> ~ silent u ev -> fquiet u b1' -> ~ silent u ev' -> ev = ev'.
Proof using Type.
  revert b1'. induction b1 as [|y b1 IH]; intros [|y' b1'] E Q L Q' L'; cbn [app] in E.
  - congruence.
  - injection E as -> _. inversion Q'; contradiction.
  - injection E as <- _. inversion Q; contradiction.
  - injection E as -> E. inversion Q; inversion Q'; subst. eauto.
Qed.

(** Everything of key [k] with value [v] in the maps has been inserted. *)
Definition told (h : list fev) (s : fst_t) : Prop :=
  (f_map s k = Some v -> took h (f_th s)) /\ (f_saved s k = Some v -> took h (f_th s)) /\
  (forall m1, f_flush s = Some m1 -> m1 k = Some v -> took h (f_th s)) /\
  (forall t, f_th s t = LPending (OpInsert k v) ->
     exists a b, h = a ++ FDev (DEv (HCall t (OpInsert k v))) :: b /\ fquiet t b).

Lemma told_step h s h' s' : told h s -> fstep s h' s' -> told (h ++ h') s'.
Proof using Type.
  intros (T1 & T2 & T3 & T4) Hs.
  assert (K : forall X : Prop, (X -> took h (f_th s)) -> X -> took (h ++ h') (f_th s')).
  { intros X HX Hx. eapply took_step; [apply HX; exact Hx|exact Hs]. }
  assert (P : forall t, Forall (silent t) h' -> f_th s t = LPending (OpInsert k v) ->
    exists a b, h ++ h' = a ++ FDev (DEv (HCall t (OpInsert k v))) :: b /\ fquiet t b).
  { intros t Hq Ht. destruct (T4 t Ht) as (a & b & -> & Hb). exists a, (b ++ h').
    split; [rewrite <- app_assoc; reflexivity|]. apply Forall_app. auto. }
  unfold told. inversion Hs as [m d o x f t c Hf|m d o x f t c Hf|m d o x f t r Hf|m d o x f t Hf|m d o f t c Hf|m d f|m d m1 f|m d m1 f|m d o x f|m d m1 x f];
    subst; cbn [f_map f_saved f_flush f_th] in *.
  - splits; eauto. intros u. unfold lset. destruct (N.eqb_spec u t) as [->|].
    + intros E. injection E as ->. exists h, []. split; auto. constructor.
    + apply P. repeat constructor. cbn. auto.
  - assert (Hp : forall u, lset f t (LDone (snd (spec_step m c))) u = LPending (OpInsert k v) ->
      exists a b, h ++ [] = a ++ FDev (DEv (HCall u (OpInsert k v))) :: b /\ fquiet u b).
    { intros u. unfold lset. destruct (N.eqb_spec u t) as [->|]; [discriminate|]. apply P. constructor. }
    splits; eauto. intros Hm.
    destruct (m k) as [v0|] eqn:E0.
    { rewrite (spec_keeps _ _ _ _ E0) in Hm. injection Hm as ->. eauto. }
    destruct c as [k2 v2|k2| |]; cbn [spec_step fst snd] in *; try (destruct (m k2); cbn [fst] in Hm; congruence); try congruence.
    destruct (m k2) eqn:E2; cbn [fst snd] in *; [congruence|].
    unfold sput in Hm. destruct (beq k2 k) eqn:X; [|congruence]. apply beq_eq in X. subst k2. injection Hm as ->.
    destruct (T4 t Hf) as (a & b & -> & Hb). exists t, a, b. rewrite app_nil_r. split; auto. left. split; auto.
    unfold lset. rewrite N.eqb_refl. auto.
  - splits; eauto. intros u. unfold lset. destruct (N.eqb_spec u t) as [->|]; [discriminate|].
    apply P. repeat constructor. cbn. auto.
  - splits; eauto. intros u. unfold lset. destruct (N.eqb_spec u t) as [->|]; [discriminate|].
    apply P. repeat constructor.
  - splits; eauto. intros u. unfold lset. destruct (N.eqb_spec u t) as [->|]; [discriminate|].
    apply P. constructor.
  - splits; eauto.
    + intros m1 E. injection E as <-. eauto.
    + intros t. apply P. repeat constructor.
  - splits; eauto; [discriminate|]. intros t. apply P. repeat constructor.
  - splits; eauto. intros t. apply P. repeat constructor.
  - splits; eauto; try discriminate.
  - splits; eauto; try discriminate.
Qed.

Lemma found_took t h1 h2 h3 :
  safely_linearizable (h1 ++ FDev (DEv (HCall t (OpFetch k))) :: h2 ++ FDev (DEv (HRet t (OFound v))) :: h3) -> fquiet t h2 ->
  exists u a b, h1 ++ FDev (DEv (HCall t (OpFetch k))) :: h2 = a ++ FDev (DEv (HCall u (OpInsert k v))) :: b /\
    forall b1 r b2, b ++ FDev (DEv (HRet t (OFound v))) :: h3 = b1 ++ FDev (DEv (HRet u r)) :: b2 -> fquiet u b1 -> r = OInserted.
Proof using Type.
  intros (s & H) Hq.
  destruct (fruns_split _ _ _ H h1 _ eq_refl) as (s1 & H1 & H2). apply fruns_ev in H2 as (a & b & Ha & Hc & H2).
  destruct (fruns_split _ _ _ H2 h2 _ eq_refl) as (d0 & H3 & H4). apply fruns_ev in H4 as (d & g & H4 & Hd & H5).
  set (hc := FDev (DEv (HCall t (OpFetch k)))) in *.
  assert (Tb : told (h1 ++ [hc]) b).
  { eapply told_step; [|exact Hc]. rewrite <- (app_nil_r h1).
    apply (fruns_hist told told_step _ _ _ Ha). rewrite <- (app_nil_l h1).
    apply (fruns_hist told told_step _ _ _ H1). unfold told. cbn. splits; intros; discriminate. }
  set (J := fun (hh : list fev) s => told hh s /\
    (f_th s t = LPending (OpFetch k) \/ exists r, f_th s t = LDone r /\ (r = OFound v -> took hh (f_th s)))).
  assert (Jstep : forall hh s h s', J hh s -> Forall (silent t) h -> fstep s h s' -> J (hh ++ h) s').
  { clear - J. intros hh s h s' [HT HJ] HE Hs. split; [eapply told_step; eauto|].
    assert (HJ' : f_th s t = LPending (OpFetch k) \/ exists r, f_th s t = LDone r /\ (r = OFound v -> took (hh ++ h) (f_th s'))).
    { destruct HJ as [HJ|(r & HJ & X)]; [auto|]. right. exists r. split; auto. intros Er. eapply took_step; eauto. }
    inversion Hs as [m d o x f u c0 Hf|m d o x f u c0 Hf|m d o x f u r Hf|m d o x f u Hf|m d o f u c0 Hf| | | | | ];
      subst; cbn [f_map f_th f_bad] in *; auto; try (stops HE).
    - inversion HE; subst. cbn [silent who] in *. unfold lset at 1 2. destruct (N.eqb_spec t u); [congruence|exact HJ'].
    - unfold lset at 1 2. destruct (N.eqb_spec t u) as [->|]; [|exact HJ']. right. eexists. split; [reflexivity|].
      destruct HJ as [E|(r & E & _)]; rewrite Hf in E; [|discriminate]. injection E as ->. cbn [spec_step snd].
      destruct (m k) as [v0|] eqn:Em; cbn [snd]; [|discriminate]. intros E. injection E as ->.
      assert (X : took hh f) by (apply (proj1 HT); exact Em).
      pose proof (took_step hh (FSt m d o x f) [] _ X Hs) as Z. cbn [f_th spec_step] in Z. rewrite Em in Z. exact Z.
    - inversion HE; subst. cbn [silent who] in *. unfold lset at 1 2. destruct (N.eqb_spec t u); [congruence|exact HJ'].
    - unfold lset at 1 2. destruct (N.eqb_spec t u) as [->|]; [|exact HJ']. right. eexists. split; [reflexivity|discriminate].
    - unfold lset at 1 2. destruct (N.eqb_spec t u) as [->|]; [|exact HJ']. right. eexists. split; [reflexivity|discriminate]. }
  assert (Jruns : forall s h s', fruns s h s' -> forall hh, Forall (silent t) h -> J hh s -> J (hh ++ h) s').
  { clear - Jstep. intros s h s' H. induction H as [s|s h s1 h' s2 H IH Hs]; intros hh HE HJ; [rewrite app_nil_r; auto|].
    apply Forall_app in HE as [E1 E2]. rewrite app_assoc. eapply Jstep; eauto. }
  assert (Jd : J (h1 ++ hc :: h2) d).
  { replace (h1 ++ hc :: h2) with (((h1 ++ [hc]) ++ h2) ++ []) by (rewrite app_nil_r, <- app_assoc; reflexivity).
    eapply Jruns; [exact H4|constructor|]. eapply Jruns; [exact H3|exact Hq|].
    split; [exact Tb|]. left. inversion Hc; subst. cbn [f_th]. unfold lset. rewrite N.eqb_refl. auto. }
  destruct Jd as [_ Jd].
  assert (X : took (h1 ++ hc :: h2) (f_th d)).
  { inversion Hd as [|? ? ? ? ? ? ?|m0 d1 o0 x0 f0 u0 r0 Hf| | | | | | |]; subst. cbn [f_th] in *.
    destruct Jd as [E|(r & E & X)]; rewrite Hf in E; [discriminate|]. injection E as <-. exact (X eq_refl). }
  (* followed to the end of the history *)
  pose proof X as (u & a0 & b0 & E0 & Hu).
  exists u, a0, b0. split; [exact E0|].
  intros b1 r b2 E Q.
  pose proof (fruns_hist (fun h s => settling u h (f_th s)) (fun h0 s h s' => settling_step u h0 s h s') _ _ _
    (fruns_join _ _ _ (fr_step _ _ _ _ _ (fr_nil _) Hd) _ _ H5) _ Hu) as Y. cbn beta in Y. cbn [app] in Y.
  assert (L : ~ silent u (FDev (DEv (HRet u r)))) by (cbn; auto).
  destruct Y as [[Hb _]|(b3 & ev & b4 & Eb & Hb & He)].
  - rewrite E in Hb. apply Forall_app in Hb as [_ Hb]. inversion Hb; contradiction.
  - assert (W : ev = FDev (DEv (HRet u r))).
    { eapply first_loud; [rewrite <- Eb; exact E|exact Hb| |exact Q|exact L]. destruct He as [->| ->]; cbn; auto. }
    destruct He as [->| ->]; congruence.
Qed.
End Took.
