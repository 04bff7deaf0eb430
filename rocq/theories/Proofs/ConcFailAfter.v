(** Calls that are made after a flush has failed. *)
From Verif Require Import Model.Bytes Model.Err Model.Format Model.IO Model.Bucket Model.Pool Model.Recover
  Model.Create Model.Store Spec SpecLin SpecDurable SpecFail Model.History Model.Crash Model.Events
  Model.Concurrent Model.ConcCrash Model.ConcFail Proofs.BytesFacts Proofs.StoreInv Proofs.LifeFacts
  Proofs.MapFacts Proofs.LinFacts Proofs.ConcFacts Proofs.ConcTheorems Proofs.ConcDurable Proofs.ConcFailInv Proofs.ConcFailRun Proofs.FailHist.

(** Read off a history: whether a flush has failed since the last stop, and the threads whose
    present call was made after that. *)
Definition mon_step (s : bool * (N -> bool)) (ev : fev) : bool * (N -> bool) :=
  let (b, l) := s in
  match ev with
  | FErr => (true, l)
  | FDev DStop => (false, fun _ => false)
  | FDev (DEv (HCall t _)) => (b, bset l t b)
  | FDev (DEv (HRet t _)) => (b, bset l t false)
  | _ => (b, l)
  end.
Definition mon (h : list fev) : bool * (N -> bool) := fold_left mon_step h (false, fun _ => false).

Lemma mon_app h h' : mon (h ++ h') = fold_left mon_step h' (mon h).
Proof. apply fold_left_app. Qed.

Lemma mon_bad h h' : fst (mon h) = true -> stop_free h' -> fst (mon (h ++ h')) = true.
Proof.
  intros H Hf. rewrite mon_app. revert H. generalize (mon h). induction h' as [|ev h' IH]; intros s H; cbn [fold_left]; auto.
  apply IH; [intros X; apply Hf; right; exact X|].
  destruct s as [b l]. cbn [fst] in H. subst b. destruct ev as [[[|]| | |]| |]; cbn [mon_step fst]; auto.
  exfalso. apply Hf. left. auto.
Qed.
Lemma mon_late t h h' : snd (mon h) t = true -> fquiet t h' -> snd (mon (h ++ h')) t = true.
Proof.
  intros H Hf. rewrite mon_app. revert H. generalize (mon h). induction h' as [|ev h' IH]; intros s H; cbn [fold_left]; auto.
  inversion Hf as [|? ? He Hr]; subst. apply IH; auto.
  destruct s as [b l]. cbn [snd] in H. unfold bset.
  destruct ev as [[[u c|u r]| | |]| |]; cbn [mon_step snd silent who] in *; auto; try contradiction;
    unfold bset; destruct (N.eqb_spec t u); auto; congruence.
Qed.

Lemma thread_other e x u h x' : thread_step e x u = Some (h, x') ->
  (forall t, t <> u -> x_th x' t = x_th x t) /\
  (h = [] /\ (forall o, x_th x u <> CRet o) \/ exists o, x_th x u = CRet o /\ h = [HRet u o]).
Proof.
  unfold thread_step, fetch_section, insert_section. cbv zeta.
  destruct (x_th x u) as [|k|n b q|n g q|k v|k v|k v n b q|k v q|k v n g q|k v|o]; try discriminate;
    try (destruct q as [[[|]|]|o c]); try (destruct q as [r|o c]);
    try (destruct (x_u x); try discriminate); try (destruct (x_m x =? 0); try discriminate);
    try (destruct (exec o (x_w x)) as [w r] eqn:E);
    try (intros Hs; injection Hs as <- <-; split;
      [intros t Ht; cbn [x_th goto set_w set_m set_g set_u set_s]; unfold tset; destruct (N.eqb_spec t u); congruence|]; eauto).
  all: try (left; split; [reflexivity|discriminate]).
  all: intros Hs; injection Hs as <- <-; split; [|left; split; [reflexivity|discriminate]]; intros t Ht.
  all: repeat match goal with |- context [match ?y with _ => _ end] => destruct y end;
    cbn [x_th goto set_w set_m set_g set_u set_s]; unfold tset; destruct (N.eqb_spec t u); congruence.
Qed.

Definition answers_ok (h : list fev) : Prop :=
  forall a t r b, h = a ++ FDev (DEv (HRet t r)) :: b -> snd (mon a) t = true -> r = OOther.
Record after_inv (h : list fev) (c : fmach) : Prop := AInv {
  av_bad : fst (mon h) = true -> exists n, fm_ec c = Some (EIO n);
  av_late : forall t, snd (mon h) t = true -> (exists n, fm_ec c = Some (EIO n)) /\
    (at_entry (x_th (fm_x c) t) = true /\ fm_in c t = false \/ x_th (fm_x c) t = CRet OOther);
  av_ans : answers_ok h }.

Lemma answers_snoc h ev : answers_ok h ->
  (forall t r, ev = FDev (DEv (HRet t r)) -> snd (mon h) t = true -> r = OOther) -> answers_ok (h ++ [ev]).
Proof.
  intros H1 H2 a t r b E Hl. destruct (@exists_last _ (FDev (DEv (HRet t r)) :: b)) as (l & z & El); [discriminate|].
  rewrite El, app_assoc in E. apply app_inj_tail in E as [E ->].
  destruct l as [|y l]; cbn [app] in El.
  - injection El as El _. subst z. rewrite app_nil_r in E. subst h. eauto.
  - injection El as El1 El2. subst y. subst h. eauto.
Qed.
Lemma answers_more h h' : answers_ok h -> (forall t r, ~ In (FDev (DEv (HRet t r))) h') -> answers_ok (h ++ h').
Proof.
  revert h. induction h' as [|ev h' IH]; intros h H1 H2; [rewrite app_nil_r; auto|].
  change (ev :: h') with ([ev] ++ h'). rewrite app_assoc. apply IH.
  - apply answers_snoc; auto. intros t r ->. exfalso. eapply H2. left. reflexivity.
  - intros t r X. eapply H2. right. exact X.
Qed.

(** Events that are neither calls nor answers nor stops nor errors. *)
Definition idle_ev (ev : fev) : Prop :=
  match ev with FFail _ | FDev DBegin | FDev DEnd => True | _ => False end.
Lemma mon_idle h h' : Forall idle_ev h' -> mon (h ++ h') = mon h.
Proof.
  rewrite mon_app. generalize (mon h). induction h' as [|ev h' IH]; intros s H; cbn [fold_left]; auto.
  inversion H; subst. rewrite IH by auto. destruct s. destruct ev as [[[|]| | |]| |]; cbn in *; auto; contradiction.
Qed.
Lemma idle_ans h h' : Forall idle_ev h' -> answers_ok h -> answers_ok (h ++ h').
Proof.
  intros H Ha. apply answers_more; auto. intros t r Hi. rewrite Forall_forall in H. exact (H _ Hi).
Qed.
Lemma refused_other c n : refused_out c (EIO n) = OOther.
Proof. destruct c; reflexivity. Qed.
Lemma flush_seen_idle x x' : Forall idle_ev (map FDev (flush_seen x x')).
Proof.
  apply Forall_forall. intros ev Hi. apply in_map_iff in Hi as (v & <- & Hv). revert Hv.
  unfold flush_seen. repeat match goal with |- context [match ?y with _ => _ end] => destruct y end; cbn [In app];
    intuition; subst; exact I.
Qed.

Lemma after_step e c h' c' h : fmstep e c h' c' -> after_inv h c ->
  (forall er, flush_error (x_fl (fm_x c)) = Some er -> er <> EAssert -> exists n, er = EIO n) -> after_inv (h ++ h') c'.
Proof.
  intros Hs [H1 H2 H3] Heio.
  inversion Hs as [x S ec ck t c0 s Ht Hv Hc E1 E2|x S ck t Ht Hck E1 E2|x S er ck t Ht Hck E1 E2|x S ec ck t h2 x3 Hck Ht E1 E2|
    x S ec ck t op n h2 x3 Hio Ht E1 E2|x S ec ck x3 Hf E1 E2|x S ec ck op n w' Hio Hf E1 E2|x S ck er Hfe Hna E1 E2|
    x S er ck Hm Hp1 E1 E2|x S ec ck w1 w2 w3 s3 Hd Hint Ho E1 E2]; subst;
    cbn [fm_x fm_disk fm_ec fm_in] in *; rewrite ?app_nil_r.
  - assert (Em : mon (h ++ [FDev (DEv (HCall t c0))]) = (fst (mon h), bset (snd (mon h)) t (fst (mon h)))).
    { rewrite mon_app. cbn [fold_left]. destruct (mon h). reflexivity. }
    constructor; rewrite ?Em; cbn [fst snd fm_x fm_ec fm_in].
    + exact H1.
    + intros u. unfold bset. destruct (N.eqb_spec u t) as [->|Hn].
      * intros Hb. split; [auto|]. left. cbn [goto x_th]. rewrite tset_same. split; auto.
        destruct c0; try discriminate; injection Hc as <-; reflexivity.
      * intros Hl. destruct (H2 u Hl) as [X Y]. split; auto. cbn [goto x_th]. rewrite tset_other by auto. exact Y.
    + apply answers_more; auto. intros u r [E|[]]. discriminate.
  - constructor; cbn [fm_x fm_ec fm_in]; auto. intros u Hl. destruct (H2 u Hl) as [(n & X) _]. discriminate.
  - constructor; cbn [fm_x fm_ec fm_in]; auto. intros u Hl. destruct (H2 u Hl) as [(n & X) Y]. split; eauto.
    cbn [goto x_th]. unfold tset. destruct (N.eqb_spec u t) as [->|]; auto. right. injection X as ->.
    rewrite refused_other. auto.
  - destruct (thread_other _ _ _ _ _ Ht) as [Ho Hh].
    destruct Hh as [[-> Hn]|(r & Hr & ->)].
    + cbn [map]. rewrite app_nil_r. constructor; cbn [fm_x fm_ec fm_in]; auto.
      intros u Hl. destruct (H2 u Hl) as [X Y]. split; auto.
      destruct (N.eq_dec u t) as [->|Hu]; [|rewrite Ho by auto; exact Y].
      destruct Y as [[Y1 Y2]|Y]; [|exfalso; exact (Hn _ Y)]. destruct Hck; congruence.
    + cbn [map].
      assert (Em : mon (h ++ [FDev (DEv (HRet t r))]) = (fst (mon h), bset (snd (mon h)) t false)).
      { rewrite mon_app. cbn [fold_left]. destruct (mon h). reflexivity. }
      constructor; rewrite ?Em; cbn [fst snd fm_x fm_ec fm_in].
      * exact H1.
      * intros u. unfold bset. destruct (N.eqb_spec u t) as [->|Hu]; [discriminate|].
        intros Hl. destruct (H2 u Hl) as [X Y]. split; auto. rewrite Ho by auto. exact Y.
      * apply answers_snoc; auto. intros u r' E Hl. injection E as -> ->.
        destruct (H2 _ Hl) as [_ [[Y _]|Y]]; rewrite Hr in Y; [discriminate|]. injection Y as ->. reflexivity.
  - destruct (thread_other _ _ _ _ _ Ht) as [Ho Hh].
    assert (Eh : h2 = []).
    { destruct Hh as [[-> _]|(r & Hr & _)]; auto. exfalso. revert Hr. cbn [goto x_th]. rewrite tset_same.
      destruct (x_th x t) as [|k|n1 b q|n1 g q|k v|k v|k v n1 b q|k v q|k v n1 g q|k v|o]; try discriminate;
        destruct q; discriminate. }
    subst h2. cbn [map]. assert (Hi : Forall idle_ev [FFail t]) by (repeat constructor).
    constructor; rewrite ?(mon_idle _ _ Hi); cbn [fm_x fm_ec fm_in]; auto; [|apply idle_ans; auto].
    intros u Hl. destruct (H2 u Hl) as [X Y]. split; auto.
    destruct (N.eq_dec u t) as [->|Hu].
    + exfalso. destruct (x_th x t) as [|k|n1 b q|n1 g q|k v|k v|k v n1 b q|k v q|k v n1 g q|k v|o];
        try discriminate; destruct Y as [[Y _]|Y]; discriminate.
    + rewrite Ho by auto. cbn [goto x_th]. rewrite tset_other by auto. exact Y.
  - pose proof (flush_seen_idle x x3) as Hi. destruct (flush_step_hold _ _ _ Hf) as [Eth _].
    constructor; rewrite ?(mon_idle _ _ Hi); cbn [fm_x fm_ec fm_in]; auto; [|apply idle_ans; auto].
    intros u Hl. rewrite Eth. auto.
  - constructor; cbn [fm_x fm_ec fm_in set_fl set_w x_th]; auto.
  - destruct (Heio _ Hfe Hna) as (n & ->).
    assert (Em : mon (h ++ [FErr]) = (true, snd (mon h))).
    { rewrite mon_app. cbn [fold_left]. destruct (mon h). reflexivity. }
    constructor; rewrite ?Em; cbn [fst snd fm_x fm_ec fm_in]; eauto.
    + intros u Hl. destruct (H2 u Hl) as [(n1 & X) _]. discriminate.
    + apply answers_more; auto. intros u r [E|[]]. discriminate.
  - constructor; cbn [fm_x fm_ec fm_in set_s x_th]; auto.
  - assert (Em : mon (h ++ [FDev DStop]) = (false, fun _ => false)).
    { rewrite mon_app. cbn [fold_left]. destruct (mon h). reflexivity. }
    constructor; rewrite ?Em; cbn [fst snd]; try discriminate.
    apply answers_more; auto. intros u r [E|[]]. discriminate.
Qed.

Lemma fcalls_small h h' : small_history (fcalls (h ++ h')) -> small_history (fcalls h).
Proof.
  rewrite fcalls_app. unfold small_history. rewrite inserts_app, insert_bytes_app. lia.
Qed.

Lemma after_use e a h c : good_args a -> iter_ok e -> failing_use e a h c -> after_inv h c.
Proof.
  intros Ha Hit (M & HM & Hx).
  remember (FMach (xinit (m_store M) (m_files M)) (m_disk M) None (fun _ => false)) as c0 eqn:E0.
  induction Hx as [c|c h c1 h' c2 Hx IH Hst].
  - constructor; cbn; try discriminate. intros a0 t r b E. destruct a0; discriminate.
  - eapply after_step; [exact Hst|apply IH; auto|].
    assert (Hu : failing_use e a h c1) by (exists M; subst c; auto).
    destruct (fail_inv e a h c1 Ha Hit Hu) as (recs & T & A & m & d & o & f & _ & Hi).
    intros er E Hn. destruct (finv_eio _ _ _ _ _ _ _ _ _ _ _ _ _ er Hi E) as [X|[X _]]; [exact X|contradiction].
Qed.

(** A call made after a flush has failed, and before the next stop, is answered with an
    error. *)
Lemma refused_after e a c t c0 r h1 h2 h3 h4 :
  let h := h1 ++ FErr :: h2 ++ FDev (DEv (HCall t c0)) :: h3 ++ FDev (DEv (HRet t r)) :: h4 in
  good_args a -> iter_ok e -> failing_use e a h c ->
  stop_free h2 -> fquiet t h3 -> r = OOther.
Proof.
  intros h Ha Hit Hu Q2 Q3. pose proof (av_ans _ _ (after_use _ _ _ _ Ha Hit Hu)) as H.
  apply (H ((((h1 ++ [FErr]) ++ h2) ++ [FDev (DEv (HCall t c0))]) ++ h3) t r h4).
  - unfold h. rewrite <- !app_assoc. reflexivity.
  - apply mon_late; auto.
    assert (Hb : fst (mon ((h1 ++ [FErr]) ++ h2)) = true).
    { apply mon_bad; auto. rewrite mon_app. cbn [fold_left]. destruct (mon h1). reflexivity. }
    rewrite mon_app. cbn [fold_left]. destruct (mon ((h1 ++ [FErr]) ++ h2)) as [b l]. cbn [fst] in Hb. subst b.
    cbn [mon_step snd]. unfold bset. rewrite N.eqb_refl. reflexivity.
Qed.
