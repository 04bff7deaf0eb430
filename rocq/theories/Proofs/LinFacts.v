(** What linearizable histories are like. *)
From Verif Require Import Model.Bytes Spec SpecLin Proofs.BytesFacts.

(** The thread of an event. *)
Definition who (ev : hev) : N := match ev with HCall t _ => t | HRet t _ => t end.
Definition quiet (t : N) (h : list hev) : Prop := Forall (fun ev => who ev <> t) h.

Lemma atomic_split h1 : forall m f h2 m' f', atomic m f (h1 ++ h2) m' f' ->
  exists m1 f1, atomic m f h1 m1 f1 /\ atomic m1 f1 h2 m' f'.
Proof.
  intros m f h2 m' f' H. remember (h1 ++ h2) as h eqn:Eh. revert h1 h2 Eh.
  induction H as [m f|m f t c h m' f' Hf H IH|m f t c h m' f' Hf H IH|m f t o h m' f' Hf H IH]; intros h1 h2 Eh.
  - symmetry in Eh. apply app_eq_nil in Eh as [-> ->]. exists m, f. split; constructor.
  - destruct h1 as [|ev h1]; cbn [app] in Eh.
    + subst h2. exists m, f. split; [apply at_nil|apply at_call; auto].
    + injection Eh as <- ->. destruct (IH h1 h2 eq_refl) as (m1 & f1 & H1 & H2). exists m1, f1. split; auto. apply at_call; auto.
  - destruct (IH h1 h2 Eh) as (m1 & f1 & H1 & H2). exists m1, f1. split; auto. eapply at_effect; eauto.
  - destruct h1 as [|ev h1]; cbn [app] in Eh.
    + subst h2. exists m, f. split; [apply at_nil|eapply at_ret; eauto].
    + injection Eh as <- ->. destruct (IH h1 h2 eq_refl) as (m1 & f1 & H1 & H2). exists m1, f1. split; auto. eapply at_ret; eauto.
Qed.

(** Something about the map and a thread that stays true while the thread is not heard of. *)
Lemma atomic_track (Q : smap -> lst -> Prop) t h : forall m f m' f',
  (forall m s c, Q m s -> Q (fst (spec_step m c)) s) ->
  (forall m c, Q m (LPending c) -> Q (fst (spec_step m c)) (LDone (snd (spec_step m c)))) ->
  quiet t h -> atomic m f h m' f' -> Q m (f t) -> Q m' (f' t).
Proof.
  intros m f m' f' Q1 Q2 Hq H.
  induction H as [m f|m f u c h m' f' Hf H IH|m f u c h m' f' Hf H IH|m f u o h m' f' Hf H IH]; intros HQ; auto.
  - inversion Hq as [|? ? Hw Hq']; subst. cbn [who] in Hw. apply IH; auto. unfold lset.
    replace (t =? u) with false by lia. auto.
  - apply IH; auto. unfold lset. destruct (N.eqb_spec t u) as [->|Hu]; [apply Q2; rewrite <- Hf|apply Q1]; auto.
  - inversion Hq as [|? ? Hw Hq']; subst. cbn [who] in Hw. apply IH; auto. unfold lset.
    replace (t =? u) with false by lia. auto.
Qed.

(** The next event: some effects first. *)
Lemma atomic_skip (Q : smap -> lst -> Prop) t ev h : forall m f m' f',
  (forall m s c, Q m s -> Q (fst (spec_step m c)) s) ->
  (forall m c, Q m (LPending c) -> Q (fst (spec_step m c)) (LDone (snd (spec_step m c)))) ->
  atomic m f (ev :: h) m' f' -> Q m (f t) ->
  exists m1 f1, Q m1 (f1 t) /\ atomic m1 f1 (ev :: h) m' f' /\
    match ev with
    | HCall u c => f1 u = LIdle /\ atomic m1 (lset f1 u (LPending c)) h m' f'
    | HRet u o => f1 u = LDone o /\ atomic m1 (lset f1 u LIdle) h m' f'
    end.
Proof.
  intros m f m' f' Q1 Q2 H. remember (ev :: h) as hh eqn:Eh.
  induction H as [m f|m f u c h' m' f' Hf H IH|m f u c h' m' f' Hf H IH|m f u o h' m' f' Hf H IH]; intros HQ.
  - discriminate.
  - injection Eh as <- ->. exists m, f. splits; auto. apply at_call; auto.
  - apply IH; auto. unfold lset. destruct (N.eqb_spec t u) as [->|Hu]; [apply Q2; rewrite <- Hf|apply Q1]; auto.
  - injection Eh as <- ->. exists m, f. splits; auto. eapply at_ret; eauto.
Qed.

Lemma spec_keeps m c k v : m k = Some v -> fst (spec_step m c) k = Some v.
Proof.
  destruct c as [k' v'|k'| |]; cbn [spec_step fst]; auto.
  - destruct (m k') eqn:E; cbn [fst]; auto. intros H. unfold sput. destruct (beq k' k) eqn:B; auto.
    apply beq_eq in B. subst k'. congruence.
  - destruct (m k'); auto.
Qed.

(** An insert that has been answered is seen by every fetch that starts later. *)
Lemma insert_then_fetch m t k v o u o' h1 h2 h3 h4 h5 :
  linearizable m (h1 ++ HCall t (OpInsert k v) :: h2 ++ HRet t o :: h3 ++ HCall u (OpFetch k) :: h4 ++ HRet u o' :: h5) ->
  quiet t h2 -> quiet u h4 ->
  exists v', o' = OFound v' /\ (o = OInserted -> v' = v).
Proof.
  intros (m' & f' & H) Ht Hu.
  apply atomic_split in H as (m1 & f1 & _ & H).
  destruct (atomic_skip (fun _ _ => True) t _ _ _ _ _ _ (fun _ _ _ _ => I) (fun _ _ _ => I) H I)
    as (m2 & f2 & _ & _ & _ & H2). clear H.
  apply atomic_split in H2 as (m3 & f3 & H2 & H3).
  set (Q := fun (m : smap) (s : lst) => s = LPending (OpInsert k v) \/
    exists o v', s = LDone o /\ m k = Some v' /\ (o = OInserted -> v' = v)).
  assert (Q1 : forall m s c, Q m s -> Q (fst (spec_step m c)) s).
  { intros m0 s c [->|(o0 & v' & -> & Hk & Ho)]; [left; auto|right]. exists o0, v'. splits; auto. apply spec_keeps; auto. }
  assert (Q2 : forall m c, Q m (LPending c) -> Q (fst (spec_step m c)) (LDone (snd (spec_step m c)))).
  { intros m0 c [E|(o0 & v' & E & _)]; [|discriminate]. injection E as ->. right. cbn [spec_step].
    destruct (m0 k) as [v0|] eqn:E; cbn [fst snd].
    - exists OKeyExists, v0. splits; auto. discriminate.
    - exists OInserted, v. splits; auto. unfold sput. rewrite beq_refl. auto. }
  assert (HQ : Q m3 (f3 t)).
  { eapply (atomic_track Q t); eauto. left. unfold lset. rewrite N.eqb_refl. auto. }
  destruct (atomic_skip Q t _ _ _ _ _ _ Q1 Q2 H3 HQ) as (m4 & f4 & HQ4 & _ & Hf4 & H4).
  destruct HQ4 as [E|(o0 & v' & E & Hk & Ho)]; rewrite Hf4 in E; [discriminate|]. injection E as <-.
  clear Q Q1 Q2 HQ H3 H2.
  set (K := fun (m : smap) (s : lst) => m k = Some v').
  assert (K1 : forall m s c, K m s -> K (fst (spec_step m c)) s) by (intros m0 s c; unfold K; apply spec_keeps).
  assert (K2 : forall m c, K m (LPending c) -> K (fst (spec_step m c)) (LDone (snd (spec_step m c))))
    by (intros m0 c; unfold K; apply spec_keeps).
  apply atomic_split in H4 as (m5 & f5 & H4 & H5).
  assert (Hk5 : m5 k = Some v').
  { revert H4 Hk. clear - K1. intros H. induction H; auto. intros Hk. apply IHatomic. apply spec_keeps. auto. }
  destruct (atomic_skip K u _ _ _ _ _ _ K1 K2 H5 Hk5) as (m6 & f6 & Hk6 & _ & _ & H6). unfold K in Hk6.
  apply atomic_split in H6 as (m7 & f7 & H6 & H7).
  set (R := fun (m : smap) (s : lst) => m k = Some v' /\ (s = LPending (OpFetch k) \/ s = LDone (OFound v'))).
  assert (R1 : forall m s c, R m s -> R (fst (spec_step m c)) s).
  { intros m0 s c [A B]. split; auto. apply spec_keeps; auto. }
  assert (R2 : forall m c, R m (LPending c) -> R (fst (spec_step m c)) (LDone (snd (spec_step m c)))).
  { intros m0 c [A [E|E]]; [|discriminate]. injection E as ->. split; [apply spec_keeps; auto|]. right.
    cbn [spec_step]. rewrite A. auto. }
  assert (HR : R m7 (f7 u)).
  { eapply (atomic_track R u); eauto. split; auto. left. unfold lset. rewrite N.eqb_refl. auto. }
  destruct (atomic_skip R u _ _ _ _ _ _ R1 R2 H7 HR) as (m8 & f8 & [_ HR8] & _ & Hf8 & _).
  rewrite Hf8 in HR8. destruct HR8 as [E|E]; [discriminate|]. injection E as ->. eauto.
Qed.

(** A value that is found was in the map or has been given to an insert of that history. *)
Lemma found_was_inserted m h t v :
  linearizable m h -> In (HRet t (OFound v)) h ->
  (exists k, m k = Some v) \/ exists u k, In (HCall u (OpInsert k v)) h.
Proof.
  intros (m' & f' & H). 
  set (G := fun k v => m k = Some v \/ exists u, In (HCall u (OpInsert k v)) h).
  assert (X : forall m0 f0 h0 m1 f1, atomic m0 f0 h0 m1 f1 -> (forall ev, In ev h0 -> In ev h) ->
    (forall k v, m0 k = Some v -> G k v) ->
    (forall t k v, f0 t = LPending (OpInsert k v) -> G k v) ->
    (forall t v, f0 t = LDone (OFound v) -> exists k, G k v) ->
    forall t v, In (HRet t (OFound v)) h0 -> exists k, G k v).
  { clear H. intros m0 f0 h0 m1 f1 H.
    induction H as [m0 f0|m0 f0 u c h' m1 f1 Hf H IH|m0 f0 u c h' m1 f1 Hf H IH|m0 f0 u o h' m1 f1 Hf H IH];
      intros Hi G1 G2 G3 t0 v0 Hin.
    - contradiction.
    - destruct Hin as [E|Hin]; [discriminate|]. eapply IH; eauto.
      + intros ev He. apply Hi. right. auto.
      + intros w k1 v1. unfold lset. destruct (w =? u); [|apply G2]. intros E; injection E as ->. right. exists u. apply Hi. left. auto.
      + intros w v1. unfold lset. destruct (w =? u); [discriminate|apply G3].
    - eapply IH; eauto.
      + intros k1 v1. destruct c as [k2 v2|k2| |]; cbn [spec_step fst]; auto.
        * destruct (m0 k2) eqn:E; cbn [fst]; auto. unfold sput. destruct (beq k2 k1) eqn:B; auto.
          apply beq_eq in B. subst k2. intros E1; injection E1 as <-. eapply G2; eauto.
        * destruct (m0 k2); auto.
      + intros w k1 v1. unfold lset. destruct (w =? u); [discriminate|apply G2].
      + intros w v1. unfold lset. destruct (w =? u); [|apply G3].
        destruct c as [k2 v2|k2| |]; cbn [spec_step snd]; try discriminate.
        * destruct (m0 k2); discriminate.
        * destruct (m0 k2) eqn:E; cbn [snd]; [|discriminate]. intros E1; injection E1 as <-. eauto.
    - destruct Hin as [E|Hin]; [injection E as -> ->; eauto|]. eapply IH; eauto.
      + intros ev He. apply Hi. right. auto.
      + intros w k1 v1. unfold lset. destruct (w =? u); [discriminate|apply G2].
      + intros w v1. unfold lset. destruct (w =? u); [discriminate|apply G3]. }
  intros Hin. destruct (X _ _ _ _ _ H) with (t := t) (v := v) as (k & [Hk|(u & Hk)]); eauto; try discriminate.
  left. auto.
Qed.
