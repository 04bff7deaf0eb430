(** The generation counting mutex. *)
From Verif Require Import Model.Bytes SpecGen Model.Gentex Proofs.BytesFacts.

Lemma gset_same f t s : gset f t s t = s.
Proof. unfold gset. rewrite N.eqb_refl. reflexivity. Qed.
Lemma gset_other f t s u : u <> t -> gset f t s u = f u.
Proof. unfold gset. destruct (N.eqb_spec u t); congruence. Qed.
Lemma wake_holds f u n : wake f u = GHolds n <-> f u = GHolds n.
Proof. unfold wake. destruct (f u); split; congruence. Qed.
Lemma wake_wait f u : wake f u <> GWait.
Proof. unfold wake. destruct (f u); congruence. Qed.

Lemma held_app t h h' : held t (h ++ h') = fold_left (held1 t) h' (held t h).
Proof. unfold held. apply fold_left_app. Qed.
Lemma held_snoc t h v : held t (h ++ [v]) = held1 t (held t h) v.
Proof. rewrite held_app. reflexivity. Qed.

Lemma no_wrap_app h h' : no_wrap (h ++ h') -> no_wrap h.
Proof. intros H t h1 h2 n ->. apply (H t h1 (h2 ++ h')). rewrite app_assoc. reflexivity. Qed.
Lemma no_wrap_now h t n : no_wrap h -> held t h = Some n -> n < 2 ^ 64.
Proof. intros H. apply (H t h []). rewrite app_nil_r. reflexivity. Qed.

(** ** Counting *)
Lemma number_ext P Q n : (forall t, P t <-> Q t) -> number P n -> number Q n.
Proof. intros H (l & H1 & H2 & H3). exists l. split; auto. split; auto. intros t. rewrite H2. apply H. Qed.
Lemma number_pos P n t : number P n -> P t -> 0 < n.
Proof.
  intros (l & _ & H2 & <-) Ht. apply H2 in Ht. destruct l; [contradiction|]. rewrite blen_cons. lia.
Qed.
Lemma number_0 P : number P 0 -> forall t, ~ P t.
Proof. intros H t Ht. pose proof (number_pos _ _ _ H Ht). lia. Qed.
Lemma number_none P : (forall t, ~ P t) -> number P 0.
Proof. intros H. exists []. split; [constructor|]. split; [|reflexivity]. intros t. split; [intros []|intros X; exact (H t X)]. Qed.
Lemma number_some P n : number P n -> 0 < n -> exists t, P t.
Proof. intros (l & _ & H2 & <-) Hn. destruct l as [|t l]; [exfalso; revert Hn; unfold blen; cbn; lia|]. exists t. apply H2. left. auto. Qed.
Lemma number_add P Q n t : number P n -> ~ P t -> (forall u, Q u <-> P u \/ u = t) -> number Q (n + 1).
Proof.
  intros (l & H1 & H2 & H3) Ht Hq. exists (t :: l). split; [constructor; auto; rewrite H2; auto|]. split.
  - intros u. rewrite Hq. cbn [In]. rewrite H2. intuition.
  - rewrite blen_cons. lia.
Qed.
Lemma number_del P Q n t : number P n -> P t -> (forall u, Q u <-> P u /\ u <> t) -> number Q (n - 1).
Proof.
  intros (l & H1 & H2 & H3) Ht Hq. apply H2 in Ht. apply in_split in Ht as (l1 & l2 & ->).
  pose proof (NoDup_remove_1 _ _ _ H1) as N1. pose proof (NoDup_remove_2 _ _ _ H1) as N2.
  exists (l1 ++ l2). split; [exact N1|]. split.
  - intros u. rewrite Hq, <- H2, !in_app_iff. cbn [In]. split.
    + intros Hu. split; [tauto|]. intros ->. apply N2. apply in_app_iff. exact Hu.
    + intros [[X|[X|X]] Hu]; try (left; assumption); try (right; assumption). congruence.
  - rewrite <- H3, !blen_app, blen_cons. lia.
Qed.
Lemma number_union P Q R n m : number P n -> number Q m -> (forall t, P t -> ~ Q t) -> (forall t, R t <-> P t \/ Q t) ->
  number R (n + m).
Proof.
  intros (l1 & A1 & A2 & A3) (l2 & B1 & B2 & B3) Hd Hr. exists (l1 ++ l2). split; [|split].
  - clear A3 B3 Hr. revert P A2 Hd. induction A1 as [|t l Ht _ IH]; intros P A2 Hd; auto. cbn [app]. constructor.
    + rewrite in_app_iff. intros [X|X]; [contradiction|]. apply B2 in X. apply (Hd t); auto. apply A2. left. auto.
    + apply (IH (fun u => In u l)); [tauto|]. intros u Hu. apply Hd. apply A2. right. auto.
  - intros t. rewrite in_app_iff, A2, B2. symmetry. apply Hr.
  - rewrite blen_app. lia.
Qed.

(** ** The invariant *)
Definition now (h : list gev) (t : N) : Prop := held t h = Some 0.
Definition before (h : list gev) (t : N) : Prop := exists a, held t h = Some a /\ 0 < a.

Record ginv (h : list gev) (x : gst) : Prop := GInv {
  gi_gen : gn_gen (gs_g x) < 2 ^ 64;
  gi_holds : forall t n, gs_th x t = GHolds n ->
    exists a, held t h = Some a /\ n < 2 ^ 64 /\ (n + a) mod 2 ^ 64 = gn_gen (gs_g x);
  gi_none : forall t, (forall n, gs_th x t <> GHolds n) -> held t h = None;
  gi_cur : number (now h) (gn_cur (gs_g x));
  gi_prev : number (before h) (gn_prev (gs_g x));
  gi_wait : forall t, gs_th x t = GWait -> 0 < gn_prev (gs_g x) }.

Lemma silent_inv g f t s h : ginv h (Gst g f) -> (forall n, f t <> GHolds n) -> (forall n, s <> GHolds n) ->
  (s = GWait -> 0 < gn_prev g) -> ginv h (Gst g (gset f t s)).
Proof.
  intros [I1 I2 I3 I4 I5 I6] Hf Hs Hw. cbn [gs_g gs_th] in *. constructor; cbn [gs_g gs_th]; auto.
  - intros u n. destruct (N.eq_dec u t) as [->|Hu]; [rewrite gset_same; intros E; exfalso; exact (Hs n E)|].
    rewrite gset_other by auto. auto.
  - intros u. destruct (N.eq_dec u t) as [->|Hu]; [intros _; auto|]. rewrite gset_other by auto. auto.
  - intros u. destruct (N.eq_dec u t) as [->|Hu]; [rewrite gset_same; auto|]. rewrite gset_other by auto. apply I6.
Qed.

Lemma held1_other t u a v : (v = ELock u \/ v = EUnlock u) -> t <> u -> held1 t a v = a.
Proof. intros [->| ->] Hn; cbn; destruct (N.eqb_spec u t); congruence. Qed.

Lemma gen_same n a g : n < 2 ^ 64 -> a < 2 ^ 64 -> (n + a) mod 2 ^ 64 = g -> n = g <-> a = 0.
Proof.
  intros Hn Ha <-. set (M := 2 ^ 64) in *. assert (M <> 0) by (unfold M; discriminate).
  destruct (N.lt_ge_cases (n + a) M) as [E|E].
  - rewrite N.mod_small by auto. lia.
  - assert (X : (n + a) mod M = n + a - M).
    { symmetry. apply (N.mod_unique _ _ 1); lia. }
    rewrite X. lia.
Qed.

Lemma gstep_inv h x h' y : gstep x h' y -> no_wrap (h ++ h') -> ginv h x -> ginv (h ++ h') y.
Proof.
  intros Hs Hw Hi. pose proof (no_wrap_app _ _ Hw) as Hw0.
  inversion Hs as [g f t Ht E1 E2|g f t n Ht E1 E2|g f t Ht E1 E2|g f t Ht E1 E2|g f t Ht Hp E1 E2|g f t Ht Hp E1 E2|g f t Ht E1 E2];
    subst; rewrite ?app_nil_r.
  - destruct Hi as [I1 I2 I3 I4 I5 I6]. cbn [gs_g gs_th] in *.
    assert (Ho : forall u, u <> t -> held u (h ++ [ELock t]) = held u h).
    { intros u Hu. rewrite held_snoc. eapply held1_other; eauto. }
    assert (Ht' : held t (h ++ [ELock t]) = Some 0) by (rewrite held_snoc; cbn; rewrite N.eqb_refl; reflexivity).
    assert (Hn : held t h = None) by (apply I3; rewrite Ht; discriminate).
    constructor; cbn [gx_lock fst snd gs_g gs_th gn_gen gn_cur gn_prev]; auto.
    + intros u n. destruct (N.eq_dec u t) as [->|Hu].
      * rewrite gset_same. intros E. injection E as <-. exists 0. split; [exact Ht'|]. split; [exact I1|].
        rewrite N.add_0_r. apply N.mod_small. exact I1.
      * rewrite gset_other by auto. rewrite (Ho u Hu). auto.
    + intros u. destruct (N.eq_dec u t) as [->|Hu]; [rewrite gset_same; intros X; exfalso; eapply X; reflexivity|].
      rewrite gset_other by auto. rewrite (Ho u Hu). auto.
    + apply (number_add (now h) _ _ t I4).
      * unfold now. congruence.
      * intros u. unfold now. destruct (N.eq_dec u t) as [->|Hu]; [rewrite Ht'; tauto|]. rewrite (Ho u Hu). tauto.
    + eapply number_ext; [|exact I5]. intros u. unfold before. destruct (N.eq_dec u t) as [->|Hu].
      * rewrite Hn, Ht'. split; intros (a & Ea & Ha); [discriminate|]. injection Ea as <-. lia.
      * rewrite (Ho u Hu). tauto.
    + intros u. destruct (N.eq_dec u t) as [->|Hu]; [rewrite gset_same; discriminate|]. rewrite gset_other by auto. apply I6.
  - destruct Hi as [I1 I2 I3 I4 I5 I6]. cbn [gs_g gs_th] in *.
    assert (Ho : forall u, u <> t -> held u (h ++ [EUnlock t]) = held u h).
    { intros u Hu. rewrite held_snoc. eapply held1_other; eauto. }
    assert (Ht' : held t (h ++ [EUnlock t]) = None) by (rewrite held_snoc; cbn; rewrite N.eqb_refl; reflexivity).
    destruct (I2 t n Ht) as (a & Ha & Hn & Hg). pose proof (no_wrap_now _ _ _ Hw0 Ha) as Ha'.
    pose proof (gen_same _ _ _ Hn Ha' Hg) as Hgs.
    assert (Hth : forall u m, gset (if snd (gx_unlock g n) then wake f else f) t GIdle u = GHolds m ->
      u <> t /\ f u = GHolds m).
    { intros u m. destruct (N.eq_dec u t) as [->|Hu]; [rewrite gset_same; discriminate|]. rewrite gset_other by auto.
      destruct (snd _); [rewrite wake_holds|]; auto. }
    assert (Hth2 : forall u, (forall m, gset (if snd (gx_unlock g n) then wake f else f) t GIdle u <> GHolds m) ->
      u <> t -> forall m, f u <> GHolds m).
    { intros u X Hu m E. apply (X m). rewrite gset_other by auto. destruct (snd _); [rewrite wake_holds|]; auto. }
    assert (HN : forall u, (forall m, gset (if snd (gx_unlock g n) then wake f else f) t GIdle u <> GHolds m) ->
      held u (h ++ [EUnlock t]) = None).
    { intros u X. destruct (N.eq_dec u t) as [->|Hu]; [exact Ht'|]. rewrite (Ho u Hu). apply I3. eauto. }
    unfold gx_unlock in *. destruct (N.eqb_spec n (gn_gen g)) as [E|E]; cbn [fst snd] in *.
    + assert (a = 0) by (apply Hgs; exact E). subst a.
      assert (Hc : 0 < gn_cur g) by (eapply number_pos; [exact I4|exact Ha]).
      assert (Hd : dec64 (gn_cur g) = gn_cur g - 1) by (unfold dec64; destruct (N.eqb_spec (gn_cur g) 0); lia).
      constructor; cbn [gs_g gs_th gn_gen gn_cur gn_prev]; auto.
      * intros u m X. destruct (Hth u m X) as [Hu Y]. rewrite (Ho u Hu). auto.
      * rewrite Hd. apply (number_del (now h) _ _ t I4 Ha). intros u. unfold now.
        destruct (N.eq_dec u t) as [->|Hu]; [rewrite Ht'; intuition; discriminate|]. rewrite (Ho u Hu). tauto.
      * eapply number_ext; [|exact I5]. intros u. unfold before. destruct (N.eq_dec u t) as [->|Hu].
        -- rewrite Ha, Ht'. split; intros (b & Eb & Hb); [injection Eb as <-; lia|discriminate].
        -- rewrite (Ho u Hu). tauto.
      * intros u. destruct (N.eq_dec u t) as [->|Hu]; [rewrite gset_same; discriminate|]. rewrite gset_other by auto. apply I6.
    + assert (Hb : before h t) by (exists a; split; [exact Ha|]; destruct (N.eq_dec a 0); [exfalso; tauto|lia]).
      assert (Hc : 0 < gn_prev g) by (eapply number_pos; [exact I5|exact Hb]).
      assert (Hd : dec64 (gn_prev g) = gn_prev g - 1) by (unfold dec64; destruct (N.eqb_spec (gn_prev g) 0); lia).
      constructor; cbn [gs_g gs_th gn_gen gn_cur gn_prev]; auto.
      * intros u m X. destruct (Hth u m X) as [Hu Y]. rewrite (Ho u Hu). auto.
      * eapply number_ext; [|exact I4]. intros u. unfold now. destruct (N.eq_dec u t) as [->|Hu].
        -- rewrite Ha, Ht'. destruct Hb as (b & Eb & Hb). rewrite Ha in Eb. injection Eb as <-.
           split; intros X; [injection X as ->; lia|discriminate].
        -- rewrite (Ho u Hu). tauto.
      * rewrite Hd. apply (number_del (before h) _ _ t I5 Hb). intros u. unfold before.
        destruct (N.eq_dec u t) as [->|Hu]; [|rewrite (Ho u Hu); tauto].
        rewrite Ht'. split; [intros (b & Eb & _); discriminate|tauto].
      * intros u. destruct (N.eq_dec u t) as [->|Hu]; [rewrite gset_same; discriminate|]. rewrite gset_other by auto.
        destruct (N.eqb_spec (dec64 (gn_prev g)) 0) as [E0|E0]; [intros X; exfalso; exact (wake_wait _ _ X)|].
        intros _. lia.
  - destruct Hi as [I1 I2 I3 I4 I5 I6]. cbn [gs_g gs_th] in *.
    assert (Hh : forall u, held u (h ++ [EStart t]) = match held u h with Some a => Some (a + 1) | None => None end).
    { intros u. rewrite held_snoc. cbn. destruct (held u h); reflexivity. }
    constructor; cbn [gx_start gs_g gs_th gn_gen gn_cur gn_prev]; auto.
    + apply N.mod_lt. discriminate.
    + intros u n X. destruct (I2 u n X) as (a & E & Hn & Hg). exists (a + 1). rewrite Hh, E. split; [reflexivity|].
      split; [exact Hn|]. rewrite N.add_assoc. rewrite <- N.add_mod_idemp_l, Hg by discriminate. reflexivity.
    + intros u X. rewrite Hh, (I3 u X). reflexivity.
    + apply number_none. intros u. unfold now. rewrite Hh. destruct (held u h); [|discriminate]. intros X. injection X as X. lia.
    + apply (number_union (before h) (now h)); auto.
      * intros u (a & E & Ha). unfold now. intros X. rewrite E in X. injection X as ->. lia.
      * intros u. unfold before, now. rewrite Hh. destruct (held u h) as [a|].
        -- split; [intros _|intros _; exists (a + 1); split; [reflexivity|lia]].
           destruct (N.eq_dec a 0) as [->|Ha]; [right; reflexivity|left; exists a; split; [reflexivity|lia]].
        -- split; [intros (b & Eb & _); discriminate|]. intros [(b & Eb & _)|Eb]; discriminate.
    + intros u X. specialize (I6 u X). lia.
  - apply silent_inv; auto; try (rewrite Ht; discriminate); discriminate.
  - assert (Hh : forall u, held u (h ++ [EFinish t]) = held u h).
    { intros u. rewrite held_snoc. cbn. destruct (held u h); reflexivity. }
    destruct (silent_inv g f t GIdle h Hi) as [J1 J2 J3 J4 J5 J6]; try (rewrite Ht; discriminate); try discriminate.
    constructor; auto.
    + intros u n. rewrite Hh. auto.
    + intros u. rewrite Hh. auto.
    + eapply number_ext; [|exact J4]. intros u. unfold now. rewrite Hh. tauto.
    + eapply number_ext; [|exact J5]. intros u. unfold before. rewrite Hh. tauto.
  - apply silent_inv; auto; try (rewrite Ht; discriminate); discriminate.
  - apply silent_inv; auto; try (rewrite Ht; discriminate); discriminate.
Qed.

Lemma gexec_inv h x : gexec h x -> no_wrap h -> ginv h x.
Proof.
  induction 1 as [|h x h' y Hx IH Hs]; intros Hw.
  - constructor; cbn [gs_g gs_th gn_gen gn_cur gn_prev]; try discriminate; auto; try reflexivity.
    + apply number_none. intros t. unfold now. discriminate.
    + apply number_none. intros t (a & E & _). discriminate.
  - eapply gstep_inv; eauto. apply IH. eapply no_wrap_app; eauto.
Qed.

(** A thread that gets the lock did not hold it. *)
Lemma gexec_prefix h x : gexec h x -> no_wrap h -> forall h1 t h2, h = h1 ++ ELock t :: h2 -> held t h1 = None.
Proof.
  induction 1 as [|h x h' y Hx IH Hs]; intros Hw h1 t h2 E; [destruct h1; discriminate|].
  pose proof (no_wrap_app _ _ Hw) as Hw0. specialize (IH Hw0).
  pose proof (gexec_inv _ _ Hx Hw0) as [_ _ I3 _ _ _].
  destruct h2 as [|v h2] using rev_ind.
  - inversion Hs as [g f u Ht E1 E2|g f u n Ht E1 E2|g f u Ht E1 E2|g f u Ht E1 E2|g f u Ht Hp E1 E2|g f u Ht Hp E1 E2|g f u Ht E1 E2];
      subst; rewrite ?app_nil_r in E; try (apply app_inj_tail in E as [E1 E3]; try discriminate); try (eapply IH; exact E).
    injection E3 as ->. subst h1. apply I3. cbn [gs_th]. rewrite Ht. discriminate.
  - clear IHh2. assert (X : h' = [] \/ exists w, h' = [w]) by (inversion Hs; eauto).
    destruct X as [->|(w & ->)]; [rewrite app_nil_r in E; eapply IH; exact E|].
    rewrite app_comm_cons, app_assoc in E. apply app_inj_tail in E as [E _]. eapply IH. exact E.
Qed.

Lemma held_kept t h1 a h2 :
  (forall h3 h4, h2 = h3 ++ ELock t :: h4 -> held t (h1 ++ h3) = None) -> ~ In (EUnlock t) h2 ->
  held t h1 = Some a -> exists b, held t (h1 ++ h2) = Some b /\ a <= b.
Proof.
  intros Hl Hu Ha. induction h2 as [|v h2 IH] using rev_ind; [rewrite app_nil_r; exists a; split; [exact Ha|lia]|].
  destruct IH as (b & Hb & Hab).
  - intros h3 h4 ->. apply (Hl h3 (h4 ++ [v])). rewrite <- app_assoc. reflexivity.
  - intros X. apply Hu, in_or_app. auto.
  - rewrite app_assoc, held_snoc, Hb. destruct v as [u|u|u|u]; cbn [held1].
    + destruct (N.eqb_spec u t) as [->|]; [|eauto]. rewrite (Hl h2 [] eq_refl) in Hb. discriminate.
    + destruct (N.eqb_spec u t) as [->|]; [|eauto]. exfalso. apply Hu, in_or_app. right. left. auto.
    + exists (b + 1). split; [reflexivity|lia].
    + eauto.
Qed.

(** ** finish() *)
Lemma finish_means h f x : gexec (h ++ [EFinish f]) x -> no_wrap (h ++ [EFinish f]) ->
  forall t a, held t h = Some a -> a = 0.
Proof.
  intros Hx Hw t a Ha. remember (h ++ [EFinish f]) as h0 eqn:E0. revert h E0 Ha.
  induction Hx as [|h0 x h' y Hx IH Hs]; intros h E Ha; [destruct h; discriminate|].
  pose proof (no_wrap_app _ _ Hw) as Hw0.
  inversion Hs as [g k u Ht E1 E2|g k u n Ht E1 E2|g k u Ht E1 E2|g k u Ht E1 E2|g k u Ht Hp E1 E2|g k u Ht Hp E1 E2|g k u Ht E1 E2];
    subst; rewrite ?app_nil_r in *; try (apply app_inj_tail in E as [E3 E4]; try discriminate); try (eapply IH; eauto; fail).
  subst h0. pose proof (gi_prev _ _ (gexec_inv _ _ Hx Hw0)) as Hn. cbn [gs_g] in Hn. rewrite Hp in Hn.
  destruct (N.eq_dec a 0) as [|Hz]; auto. exfalso. apply (number_0 _ Hn t). exists a. split; [exact Ha|lia].
Qed.

Lemma finish_after h1 f h2 g x t a : gexec (h1 ++ EStart f :: h2 ++ [EFinish g]) x ->
  no_wrap (h1 ++ EStart f :: h2 ++ [EFinish g]) -> held t h1 = Some a -> In (EUnlock t) h2.
Proof.
  intros Hx Hw Ha.
  destruct (in_dec (fun v w : gev => ltac:(decide equality; apply N.eq_dec) : {v = w} + {v <> w}) (EUnlock t) h2) as [Hi|Hi]; auto.
  exfalso. destruct (held_kept t h1 a (EStart f :: h2)) as (b & Hb & Hab).
  - intros h3 h4 E. destruct h3 as [|v h3]; [discriminate|]. injection E as <- ->.
    eapply (gexec_prefix _ _ Hx Hw (h1 ++ EStart f :: h3) t (h4 ++ [EFinish g])). repeat (rewrite <- app_assoc; cbn [app]).
    reflexivity.
  - intros [X|X]; [discriminate|contradiction].
  - exact Ha.
  - assert (Hp : held t (h1 ++ [EStart f]) = Some (a + 1)) by (rewrite held_snoc, Ha; reflexivity).
    destruct (held_kept t (h1 ++ [EStart f]) (a + 1) h2) as (c & Hc & Hac); auto.
    + intros h3 h4 ->. eapply (gexec_prefix _ _ Hx Hw ((h1 ++ [EStart f]) ++ h3) t (h4 ++ [EFinish g])). repeat (rewrite <- app_assoc; cbn [app]).
      reflexivity.
    + assert (c = 0).
      { eapply (finish_means ((h1 ++ [EStart f]) ++ h2) g x); [| |exact Hc]; rewrite <- !app_assoc; assumption. }
      lia.
Qed.

Lemma waits_for h x f : gexec h x -> no_wrap h -> gs_th x f = GWait -> exists t a, held t h = Some a /\ 0 < a.
Proof.
  intros Hx Hw Hf. destruct (gexec_inv _ _ Hx Hw) as [_ _ _ _ I5 I6].
  destruct (number_some _ _ I5 (I6 f Hf)) as (t & a & Ha). eauto.
Qed.

Lemma returns_when h x f : gexec h x -> no_wrap h -> gs_th x f = GTest -> (forall t a, held t h = Some a -> a = 0) ->
  gstep x [EFinish f] (Gst (gs_g x) (gset (gs_th x) f GIdle)) /\ forall y, gs_th y f = GWait -> ~ gstep x [] y.
Proof.
  intros Hx Hw Hf Hn. pose proof (gi_prev _ _ (gexec_inv _ _ Hx Hw)) as Hp.
  assert (E : gn_prev (gs_g x) = 0).
  { destruct (N.eq_dec (gn_prev (gs_g x)) 0) as [|Hz]; auto. exfalso.
    assert (Hz' : 0 < gn_prev (gs_g x)) by lia. destruct (number_some _ _ Hp Hz') as (t & a & Ha & Hpos).
    pose proof (Hn t a Ha). lia. }
  destruct x as [g k]. cbn [gs_g gs_th] in *. split; [apply gt_returns; auto|].
  intros y Hy Hs. inversion Hs as [| | |g' k' u Ht E1 E2| |g' k' u Ht Hq E1 E2|g' k' u Ht E1 E2]; subst; cbn [gs_th] in Hy; revert Hy.
  - destruct (N.eq_dec f u) as [->|Hu]; [rewrite gset_same; discriminate|rewrite gset_other by auto; congruence].
  - lia.
  - destruct (N.eq_dec f u) as [->|Hu]; [rewrite gset_same; discriminate|rewrite gset_other by auto; congruence].
Qed.

(** ** genlock *)
(** Genlock [i] plays thread [i + 1]. *)
Definition th_of (o : option glk) : gth := match o with Some (Glk true true (Some n)) => GHolds n | _ => GIdle end.
Record lsim (g : gcnt) (f : N -> option glk) (k : N) (h : list gev) (x : gst) : Prop := LSim {
  li_x : gexec h x; li_g : gs_g x = g; li_0 : gs_th x 0 = GIdle;
  li_th : forall i, gs_th x (i + 1) = th_of (f i);
  li_ok : forall i l, f i = Some l -> lk_g l = true /\ (lk_owned l = true -> exists n, lk_gen l = Some n);
  li_k : forall t h1 h2 n, h = h1 ++ h2 -> held t h1 = Some n -> n <= k }.

Lemma lput_same f i o : lput f i o i = o.
Proof. unfold lput. rewrite N.eqb_refl. reflexivity. Qed.
Lemma lput_other f i o u : u <> i -> lput f i o u = f u.
Proof. unfold lput. destruct (N.eqb_spec u i); congruence. Qed.

Lemma snoc_k h v k k' :
  (forall t h1 h2 n, h = h1 ++ h2 -> held t h1 = Some n -> n <= k) -> k <= k' ->
  (forall t a n, held1 t a v = Some n -> (a = None \/ exists m, a = Some m /\ m <= k) -> n <= k') ->
  forall t h1 h2 n, h ++ [v] = h1 ++ h2 -> held t h1 = Some n -> n <= k'.
Proof.
  intros H Hk Hv t h1 h2 n E Hn. destruct h2 as [|w h2] using rev_ind.
  - rewrite app_nil_r in E. subst h1. rewrite held_snoc in Hn. apply (Hv _ _ _ Hn).
    destruct (held t h) as [m|] eqn:Em; [right|left; auto]. exists m. split; auto. apply (H t h [] m); [rewrite app_nil_r; auto|auto].
  - clear IHh2. rewrite app_assoc in E. apply app_inj_tail in E as [E _]. specialize (H _ _ _ _ E Hn). lia.
Qed.
Lemma held1_k t a v n k : (forall u, v <> EStart u) -> held1 t a v = Some n -> (a = None \/ exists m, a = Some m /\ m <= k) -> n <= k.
Proof.
  intros Hv Hn Ha. destruct v as [u|u|u|u]; cbn [held1] in Hn.
  - destruct (u =? t); [injection Hn as <-; lia|]. destruct Ha as [->|(m & -> & Hm)]; [discriminate|]. injection Hn as <-. exact Hm.
  - destruct (u =? t); [discriminate|]. destruct Ha as [->|(m & -> & Hm)]; [discriminate|]. injection Hn as <-. exact Hm.
  - exfalso. exact (Hv u eq_refl).
  - destruct Ha as [->|(m & -> & Hm)]; [discriminate|]. injection Hn as <-. exact Hm.
Qed.

Lemma lsim_lock g f k h x i l : lsim g f k h x -> th_of (f i) = GIdle -> lk_g l = true -> lk_owned l = false ->
  exists g' f' h' x', lk_lock g f i l = LOk g' f' /\ lsim g' f' k h' x'.
Proof.
  intros [I1 I2 I3 I4 I5 I6] Ht Hg Ho. unfold lk_lock. rewrite Hg, Ho. cbn [negb orb].
  destruct x as [gx fx]. cbn [gs_g gs_th] in *. subst gx.
  do 2 eexists. exists (h ++ [ELock (i + 1)]). eexists. split; [reflexivity|].
  constructor.
  - eapply gx_step; [exact I1|]. apply gt_lock. rewrite I4. exact Ht.
  - reflexivity.
  - cbn [gs_th]. rewrite gset_other by lia. exact I3.
  - intros j. cbn [gs_th]. destruct (N.eq_dec j i) as [->|Hj]; [rewrite gset_same, lput_same; reflexivity|].
    rewrite gset_other by lia. rewrite lput_other by auto. apply I4.
  - intros j l'. destruct (N.eq_dec j i) as [->|Hj]; [rewrite lput_same|rewrite lput_other by auto; apply I5].
    intros E. injection E as <-. cbn [lk_g lk_owned lk_gen]. split; [reflexivity|]. eauto.
  - apply (snoc_k _ _ _ _ I6); [lia|]. intros t a n. apply held1_k. discriminate.
Qed.

Lemma lsim_unlock g f k h x i l : lsim g f k h x -> k < 2 ^ 64 -> f i = Some l -> lk_owned l = true ->
  exists g' f' h' x', lk_unlock g f i l = LOk g' f' /\ lsim g' f' k h' x' /\ f' i <> None /\ th_of (f' i) = GIdle /\
    forall j, j <> i -> f' j = f j.
Proof.
  intros [I1 I2 I3 I4 I5 I6] Hk Hf Ho. destruct (I5 _ _ Hf) as [Hg Hn]. destruct (Hn Ho) as (n & En).
  unfold lk_unlock. rewrite Hg, Ho, En. cbn [negb orb].
  destruct x as [gx fx]. cbn [gs_g gs_th] in *. subst gx.
  do 2 eexists. exists (h ++ [EUnlock (i + 1)]). eexists. split; [reflexivity|].
  assert (Hw : forall u, (u = 0 \/ exists j, u = j + 1) /\ fx u <> GWait).
  { intros u. split; [destruct (N.eq_dec u 0) as [->|]; [left; auto|right; exists (u - 1); lia]|].
    destruct (N.eq_dec u 0) as [->|]; [rewrite I3; discriminate|].
    replace u with (u - 1 + 1) by lia. rewrite I4. unfold th_of. destruct (f (u - 1)) as [[[] [] []]|]; discriminate. }
  assert (Hwk : forall u, (if snd (gx_unlock g n) then wake fx else fx) u = fx u).
  { intros u. destruct (snd _); auto. unfold wake. pose proof (proj2 (Hw u)). destruct (fx u); auto; congruence. }
  split; [|split; [rewrite lput_same; discriminate|split; [rewrite lput_same; reflexivity|intros j Hj; apply lput_other; auto]]].
  constructor.
  - eapply gx_step; [exact I1|]. apply gt_unlock with (n := n). rewrite I4, Hf. destruct l as [o b q]. cbn in Hg, Ho, En. subst. reflexivity.
  - reflexivity.
  - cbn [gs_th]. rewrite gset_other by lia. rewrite Hwk. exact I3.
  - intros j. cbn [gs_th]. destruct (N.eq_dec j i) as [->|Hj]; [rewrite gset_same, lput_same; reflexivity|].
    rewrite gset_other by lia. rewrite lput_other by auto. rewrite Hwk. apply I4.
  - intros j l'. destruct (N.eq_dec j i) as [->|Hj]; [rewrite lput_same|rewrite lput_other by auto; apply I5].
    intros E. injection E as <-. cbn [lk_g lk_owned lk_gen]. split; [reflexivity|discriminate].
  - apply (snoc_k _ _ _ _ I6); [lia|]. intros t a m. apply held1_k. discriminate.
Qed.

Lemma lsim_put g f k h x i o : lsim g f k h x -> th_of (f i) = GIdle -> th_of o = GIdle ->
  (forall l, o = Some l -> lk_g l = true /\ (lk_owned l = true -> exists n, lk_gen l = Some n)) ->
  lsim g (lput f i o) k h x.
Proof.
  intros [I1 I2 I3 I4 I5 I6] H1 H2 H3. constructor; auto.
  - intros j. rewrite I4. destruct (N.eq_dec j i) as [->|Hj]; [rewrite lput_same; congruence|rewrite lput_other by auto; reflexivity].
  - intros j l. destruct (N.eq_dec j i) as [->|Hj]; [rewrite lput_same; auto|rewrite lput_other by auto; apply I5].
Qed.

Lemma unowned_idle g f k h x i l : lsim g f k h x -> f i = Some l -> lk_owned l = false -> th_of (f i) = GIdle.
Proof. intros _ -> H. destruct l as [[] b q]; [discriminate|reflexivity]. Qed.

Lemma ldo_sim o g f k h x : stays o = true -> lsim g f k h x -> k < 2 ^ 64 ->
  match ldo o g f with
  | Some (LOk g' f') => exists h' x', lsim g' f' (k + if lstart o then 1 else 0) h' x'
  | Some LUndef => False
  | _ => True
  end.
Proof.
  intros Hs Hi Hk. destruct o as [i|i|i|i|i|i j|i j|i j|i|]; try discriminate; cbn [ldo lstart]; rewrite ?N.add_0_r.
  - destruct (f i) as [l|] eqn:E; [exact I|].
    destruct (lsim_lock g f k h x i (Glk false true None) Hi) as (g' & f' & h' & x' & -> & Hs'); auto; [rewrite E; reflexivity|]. eauto.
  - destruct (f i) as [l|] eqn:E; [exact I|]. exists h, x. apply lsim_put; auto; [rewrite E; reflexivity|].
    intros l X. injection X as <-. split; [reflexivity|discriminate].
  - destruct (f i) as [l|] eqn:E; [|exact I]. destruct (lk_owned l) eqn:Eo.
    + unfold lk_lock. rewrite Eo, orb_true_r. exact I.
    + destruct (lsim_lock g f k h x i l Hi) as (g' & f' & h' & x' & -> & Hs'); eauto.
      * eapply unowned_idle; eauto.
      * apply (li_ok _ _ _ _ _ Hi _ _ E).
  - destruct (f i) as [l|] eqn:E; [|exact I]. destruct (lk_owned l) eqn:Eo.
    + destruct (lsim_unlock g f k h x i l Hi Hk E Eo) as (g' & f' & h' & x' & -> & Hs' & _). eauto.
    + unfold lk_unlock. rewrite Eo. cbn [negb]. rewrite orb_true_r. exact I.
  - destruct (f i) as [l|] eqn:E; [|exact I]. unfold lk_owns. destruct (li_ok _ _ _ _ _ Hi _ _ E) as [Hg _]. rewrite Hg. cbn [andb].
    destruct (lk_owned l) eqn:Eo.
    + destruct (lsim_unlock g f k h x i l Hi Hk E Eo) as (g' & f' & h' & x' & -> & Hs' & _ & Hd & _).
      exists h', x'. apply lsim_put; auto. discriminate.
    + exists h, x. apply lsim_put; auto; [eapply unowned_idle; eauto|discriminate].
  - destruct Hi as [I1 I2 I3 I4 I5 I6]. destruct x as [gx fx]. cbn [gs_g gs_th] in *. subst gx.
    exists (h ++ [EStart 0]), (Gst (gx_start g) fx). constructor; auto.
    + eapply gx_step; [exact I1|]. apply gt_start. exact I3.
    + apply (snoc_k _ _ k _ I6); [lia|]. intros t a n E [->|(m & -> & Hm)]; cbn in E; [discriminate|]. injection E as <-. lia.
Qed.

Lemma ldos_sim l : forall g f k h x, Forall (fun o => stays o = true) l -> lsim g f k h x -> k + starts l < 2 ^ 64 ->
  match ldos l g f with
  | Some (LOk g' f') => exists h' x', lsim g' f' (k + starts l) h' x'
  | Some LUndef => False
  | _ => True
  end.
Proof.
  induction l as [|o l IH]; intros g f k h x Hl Hi Hk; cbn [ldos].
  - exists h, x. unfold starts. cbn [filter]. replace (blen (@nil lop)) with 0 by reflexivity. rewrite N.add_0_r. exact Hi.
  - inversion Hl as [|? ? Ho Hl']; subst.
    assert (Es : starts (o :: l) = (if lstart o then 1 else 0) + starts l).
    { unfold starts. cbn [filter]. destruct (lstart o); [rewrite blen_cons; lia|lia]. }
    rewrite Es in *.
    assert (Hk0 : k < 2 ^ 64) by lia. pose proof (ldo_sim o g f k h x Ho Hi Hk0) as X.
    destruct (ldo o g f) as [[g' f'| |]|]; auto. destruct X as (h' & x' & Hi'). rewrite N.add_assoc in *. eapply IH; eauto.
Qed.

Lemma lsim_count g f k h x : lsim g f k h x -> k < 2 ^ 64 -> number (owns_in f) (gn_cur g + gn_prev g).
Proof.
  intros [I1 I2 I3 I4 I5 I6] Hk.
  assert (Hw : no_wrap h) by (intros t h1 h2 n E Hn; specialize (I6 _ _ _ _ E Hn); lia).
  destruct (gexec_inv _ _ I1 Hw) as [_ J2 J3 J4 J5 _]. rewrite I2 in *.
  assert (U : number (fun t => held t h <> None) (gn_cur g + gn_prev g)).
  { eapply number_union; [exact J4|exact J5| |].
    - intros t. unfold now, before. intros -> (a & E & Ha). injection E as <-. lia.
    - intros t. unfold now, before. destruct (held t h) as [a|].
      + split; [intros _|discriminate]. destruct (N.eq_dec a 0) as [->|Ha]; [left; auto|right; exists a; split; [auto|lia]].
      + split; [congruence|]. intros [X|(a & X & _)]; discriminate. }
  assert (Hh : forall t, held t h <> None <-> exists n, gs_th x t = GHolds n).
  { intros t. split.
    - intros X. destruct (gs_th x t) as [|n| |] eqn:E; eauto; exfalso; apply X, J3; rewrite E; discriminate.
    - intros (n & E). destruct (J2 _ _ E) as (a & -> & _). discriminate. }
  assert (Ho : forall i, owns_in f i <-> held (i + 1) h <> None).
  { intros i. rewrite Hh, I4. unfold owns_in, th_of, lk_owns. split.
    - intros (l & E & Ht). destruct (I5 _ _ E) as [_ Hn]. rewrite E. destruct l as [o b q]. cbn [lk_g lk_owned lk_gen] in *.
      apply andb_prop in Ht as [-> ->]. destruct (Hn eq_refl) as (n & ->). eauto.
    - destruct (f i) as [[[] [] [n|]]|]; intros (m & E); try discriminate. eexists. split; reflexivity. }
  destruct U as (l & L1 & L2 & L3). exists (map (fun t => t - 1) l).
  assert (H0 : forall t, In t l -> 0 < t).
  { intros t Ht. apply L2, Hh in Ht as (n & Hn). destruct (N.eq_dec t 0) as [->|]; [congruence|lia]. }
  split; [|split].
  - clear L2 L3. induction L1 as [|t l Ht L1 IH]; cbn [map]; [constructor|]. constructor.
    + intros X. apply in_map_iff in X as (u & E & Hu). apply Ht.
      assert (0 < t) by (apply H0; left; auto). assert (0 < u) by (apply H0; right; auto).
      replace t with u by lia. exact Hu.
    + apply IH. intros u Hu. apply H0. right. auto.
  - intros i. rewrite Ho, in_map_iff. rewrite <- L2. split.
    + intros (t & E & Ht). pose proof (H0 t Ht). replace (i + 1) with t by lia. exact Ht.
    + intros X. exists (i + 1). split; [lia|exact X].
  - rewrite <- L3. unfold blen. rewrite map_length. reflexivity.
Qed.

(** The operations that the store makes use of never fail an assertion. *)
Lemma scoped_asserts l : forall g f, Forall (fun o => scoped o = true) l -> ldos l g f <> Some LAssert.
Proof.
  induction l as [|o l IH]; intros g f Hl; cbn [ldos]; [discriminate|]. inversion Hl as [|? ? Ho Hl']; subst.
  assert (X : ldo o g f <> Some LAssert).
  { destruct o as [i|i|i|i|i|i j|i j|i j|i|]; try discriminate; cbn [ldo].
    - destruct (f i); discriminate.
    - destruct (f i) as [l0|]; [|discriminate]. destruct (lk_owns l0) eqn:E; [|discriminate].
      unfold lk_owns in E. apply andb_prop in E as [E1 E2]. unfold lk_unlock. rewrite E1, E2. cbn [negb orb].
      destruct (lk_gen l0); discriminate. }
  destruct (ldo o g f) as [[g' f'| |]|]; auto; try discriminate.
Qed.
