(** What durably linearizable histories are like. *)
From Verif Require Import Model.Bytes Spec SpecLin SpecDurable Proofs.BytesFacts Proofs.LinFacts.

(** No stop, and nothing is heard of thread [t]. *)
Definition running (h : list dev) : Prop := ~ In DStop h.
Definition dquiet (t : N) (h : list dev) : Prop :=
  Forall (fun ev => match ev with DEv v => who v <> t | DStop => False | _ => True end) h.

Lemma dquiet_running t h : dquiet t h -> running h.
Proof. intros H Hi. unfold dquiet in H. rewrite Forall_forall in H. exact (H _ Hi). Qed.

Lemma datomic_split h1 : forall m d o f h2 m' d' o' f', datomic m d o f (h1 ++ h2) m' d' o' f' ->
  exists m1 d1 o1 f1, datomic m d o f h1 m1 d1 o1 f1 /\ datomic m1 d1 o1 f1 h2 m' d' o' f'.
Proof.
  intros m d o f h2 m' d' o' f' H. remember (h1 ++ h2) as h eqn:Eh. revert h1 h2 Eh.
  induction H as [m d o f|m d o f t c h m' d' o' f' Hf H IH|m d o f t c h m' d' o' f' Hf H IH|
    m d o f t r h m' d' o' f' Hf H IH|m d f h m' d' o' f' H IH|m d m0 f h m' d' o' f' H IH|
    m d o f h m' d' o' f' H IH|m d m0 f h m' d' o' f' H IH]; intros h1 h2 Eh.
  - symmetry in Eh. apply app_eq_nil in Eh as [-> ->]. exists m, d, o, f. split; apply da_nil.
  - destruct h1 as [|ev h1]; cbn [app] in Eh.
    + subst h2. exists m, d, o, f. split; [apply da_nil|apply da_call; auto].
    + injection Eh as <- ->. destruct (IH h1 h2 eq_refl) as (m1 & d1 & o1 & f1 & H1 & H2).
      exists m1, d1, o1, f1. split; auto. apply da_call; auto.
  - destruct (IH h1 h2 Eh) as (m1 & d1 & o1 & f1 & H1 & H2). exists m1, d1, o1, f1. split; auto. eapply da_effect; eauto.
  - destruct h1 as [|ev h1]; cbn [app] in Eh.
    + subst h2. exists m, d, o, f. split; [apply da_nil|eapply da_ret; eauto].
    + injection Eh as <- ->. destruct (IH h1 h2 eq_refl) as (m1 & d1 & o1 & f1 & H1 & H2).
      exists m1, d1, o1, f1. split; auto. eapply da_ret; eauto.
  - destruct h1 as [|ev h1]; cbn [app] in Eh.
    + subst h2. exists m, d, None, f. split; [apply da_nil|apply da_begin; auto].
    + injection Eh as <- ->. destruct (IH h1 h2 eq_refl) as (m1 & d1 & o1 & f1 & H1 & H2).
      exists m1, d1, o1, f1. split; auto. apply da_begin; auto.
  - destruct h1 as [|ev h1]; cbn [app] in Eh.
    + subst h2. exists m, d, (Some m0), f. split; [apply da_nil|apply da_end; auto].
    + injection Eh as <- ->. destruct (IH h1 h2 eq_refl) as (m1 & d1 & o1 & f1 & H1 & H2).
      exists m1, d1, o1, f1. split; auto. apply da_end; auto.
  - destruct h1 as [|ev h1]; cbn [app] in Eh.
    + subst h2. exists m, d, o, f. split; [apply da_nil|apply da_lost; auto].
    + injection Eh as <- ->. destruct (IH h1 h2 eq_refl) as (m1 & d1 & o1 & f1 & H1 & H2).
      exists m1, d1, o1, f1. split; auto. apply da_lost; auto.
  - destruct h1 as [|ev h1]; cbn [app] in Eh.
    + subst h2. exists m, d, (Some m0), f. split; [apply da_nil|apply da_kept; auto].
    + injection Eh as <- ->. destruct (IH h1 h2 eq_refl) as (m1 & d1 & o1 & f1 & H1 & H2).
      exists m1, d1, o1, f1. split; auto. apply da_kept; auto.
Qed.

(** Something about the map and a thread that stays true until the thread is heard of. *)
Section Track.
Variable Q : smap -> lst -> Prop.
Hypothesis Q1 : forall m s c, Q m s -> Q (fst (spec_step m c)) s.
Hypothesis Q2 : forall m c, Q m (LPending c) -> Q (fst (spec_step m c)) (LDone (snd (spec_step m c))).

Lemma datomic_track t m d o f h m' d' o' f' :
  dquiet t h -> datomic m d o f h m' d' o' f' -> Q m (f t) -> Q m' (f' t).
Proof.
  intros Hq H. induction H as [m d o f|m d o f u c h m' d' o' f' Hf H IH|m d o f u c h m' d' o' f' Hf H IH|
    m d o f u r h m' d' o' f' Hf H IH|m d f h m' d' o' f' H IH|m d m0 f h m' d' o' f' H IH|
    m d o f h m' d' o' f' H IH|m d m0 f h m' d' o' f' H IH]; intros HQ; auto.
  - inversion Hq as [|? ? Hw Hq']; subst. cbn [who] in Hw. apply IH; auto. unfold lset.
    replace (t =? u) with false by lia. auto.
  - apply IH; auto. unfold lset. destruct (N.eqb_spec t u) as [->|Hu]; [apply Q2; rewrite <- Hf|apply Q1]; auto.
  - inversion Hq as [|? ? Hw Hq']; subst. cbn [who] in Hw. apply IH; auto. unfold lset.
    replace (t =? u) with false by lia. auto.
  - inversion Hq as [|? ? Hw Hq']; subst. apply IH; auto.
  - inversion Hq as [|? ? Hw Hq']; subst. apply IH; auto.
  - inversion Hq as [|? ? Hw Hq']; subst. contradiction.
  - inversion Hq as [|? ? Hw Hq']; subst. contradiction.
Qed.

(** The next event of the thread: some effects first. *)
Lemma datomic_next t v m d o f h m' d' o' f' :
  datomic m d o f (DEv v :: h) m' d' o' f' -> Q m (f t) ->
  exists m1 f1, Q m1 (f1 t) /\
    match v with
    | HCall u c => f1 u = LIdle /\ datomic m1 d o (lset f1 u (LPending c)) h m' d' o' f'
    | HRet u r => f1 u = LDone r /\ datomic m1 d o (lset f1 u LIdle) h m' d' o' f'
    end.
Proof.
  intros H. remember (DEv v :: h) as hh eqn:Eh.
  induction H as [m d o f|m d o f u c h' m' d' o' f' Hf H IH|m d o f u c h' m' d' o' f' Hf H IH|
    m d o f u r h' m' d' o' f' Hf H IH|m d f h' m' d' o' f' H IH|m d m0 f h' m' d' o' f' H IH|
    m d o f h' m' d' o' f' H IH|m d m0 f h' m' d' o' f' H IH]; intros HQ; try discriminate.
  - injection Eh as <- ->. exists m, f. splits; auto.
  - apply IH; auto. unfold lset. destruct (N.eqb_spec t u) as [->|Hu]; [apply Q2; rewrite <- Hf|apply Q1]; auto.
  - injection Eh as <- ->. exists m, f. splits; auto.
Qed.
End Track.

(** A value in the map stays while the machine does not stop. *)
Lemma datomic_keeps k v m d o f h m' d' o' f' :
  running h -> datomic m d o f h m' d' o' f' -> m k = Some v -> m' k = Some v.
Proof.
  intros Hr H. induction H as [m d o f|m d o f u c h m' d' o' f' Hf H IH|m d o f u c h m' d' o' f' Hf H IH|
    m d o f u r h m' d' o' f' Hf H IH|m d f h m' d' o' f' H IH|m d m0 f h m' d' o' f' H IH|
    m d o f h m' d' o' f' H IH|m d m0 f h m' d' o' f' H IH]; intros Hk; auto;
    try (apply IH; auto; intros X; apply Hr; right; exact X).
  - apply IH; auto. apply spec_keeps; auto.
  - exfalso. apply Hr. left. auto.
  - exfalso. apply Hr. left. auto.
Qed.

(** ... and it stays with what is being saved. *)
Lemma datomic_held k v m d o f h m' d' o' f' :
  running h -> datomic m d o f h m' d' o' f' ->
  m k = Some v /\ (forall m1, o = Some m1 -> m1 k = Some v) ->
  m' k = Some v /\ (forall m1, o' = Some m1 -> m1 k = Some v).
Proof.
  intros Hr H. induction H as [m d o f|m d o f u c h m' d' o' f' Hf H IH|m d o f u c h m' d' o' f' Hf H IH|
    m d o f u r h m' d' o' f' Hf H IH|m d f h m' d' o' f' H IH|m d m0 f h m' d' o' f' H IH|
    m d o f h m' d' o' f' H IH|m d m0 f h m' d' o' f' H IH]; intros [Hk Ho]; auto.
  - apply IH; auto. intros X; apply Hr; right; exact X.
  - apply IH; auto. split; auto. apply spec_keeps; auto.
  - apply IH; auto. intros X; apply Hr; right; exact X.
  - apply IH; [intros X; apply Hr; right; exact X|]. split; auto. intros m1 E; injection E as <-; auto.
  - apply IH; [intros X; apply Hr; right; exact X|]. split; auto. discriminate.
  - exfalso. apply Hr. left. auto.
  - exfalso. apply Hr. left. auto.
Qed.

(** A value that has been saved stays for ever. *)
Lemma datomic_saved k v m d o f h m' d' o' f' :
  datomic m d o f h m' d' o' f' ->
  m k = Some v /\ d k = Some v /\ (forall m1, o = Some m1 -> m1 k = Some v) ->
  m' k = Some v /\ d' k = Some v /\ (forall m1, o' = Some m1 -> m1 k = Some v).
Proof.
  intros H. induction H as [m d o f|m d o f u c h m' d' o' f' Hf H IH|m d o f u c h m' d' o' f' Hf H IH|
    m d o f u r h m' d' o' f' Hf H IH|m d f h m' d' o' f' H IH|m d m0 f h m' d' o' f' H IH|
    m d o f h m' d' o' f' H IH|m d m0 f h m' d' o' f' H IH]; intros (Hk & Hd & Ho); auto; apply IH; splits; auto.
  - apply spec_keeps; auto.
  - intros m1 E; injection E as <-; auto.
  - discriminate.
  - discriminate.
  - discriminate.
Qed.

(** An event of the flush: some effects first. *)
Lemma datomic_begin k v m d o f h m' d' o' f' :
  datomic m d o f (DBegin :: h) m' d' o' f' -> m k = Some v ->
  exists m1 f1, m1 k = Some v /\ datomic m1 d (Some m1) f1 h m' d' o' f'.
Proof.
  intros H. remember (DBegin :: h) as hh eqn:Eh.
  induction H as [m d o f|m d o f u c h' m' d' o' f' Hf H IH|m d o f u c h' m' d' o' f' Hf H IH|
    m d o f u r h' m' d' o' f' Hf H IH|m d f h' m' d' o' f' H IH|m d m0 f h' m' d' o' f' H IH|
    m d o f h' m' d' o' f' H IH|m d m0 f h' m' d' o' f' H IH]; intros HQ; try discriminate.
  - apply IH; auto. apply spec_keeps; auto.
  - injection Eh as ->. eauto.
Qed.
Lemma datomic_end k v m d o f h m' d' o' f' :
  datomic m d o f (DEnd :: h) m' d' o' f' -> m k = Some v -> (forall m1, o = Some m1 -> m1 k = Some v) ->
  exists m1 d1 f1, m1 k = Some v /\ d1 k = Some v /\ datomic m1 d1 None f1 h m' d' o' f'.
Proof.
  intros H. remember (DEnd :: h) as hh eqn:Eh.
  induction H as [m d o f|m d o f u c h' m' d' o' f' Hf H IH|m d o f u c h' m' d' o' f' Hf H IH|
    m d o f u r h' m' d' o' f' Hf H IH|m d f h' m' d' o' f' H IH|m d m0 f h' m' d' o' f' H IH|
    m d o f h' m' d' o' f' H IH|m d m0 f h' m' d' o' f' H IH]; intros HQ Ho; try discriminate.
  - apply IH; auto. apply spec_keeps; auto.
  - injection Eh as ->. exists m, m0, f. splits; auto.
Qed.

(** An answered insert has put a value into the map. *)
Lemma datomic_insert t k v r h1 h2 m d o f m' d' o' f' :
  datomic m d o f (DEv (HCall t (OpInsert k v)) :: h1 ++ DEv (HRet t r) :: h2) m' d' o' f' -> dquiet t h1 ->
  exists v' m1 d1 o1 f1, (r = OInserted -> v' = v) /\ m1 k = Some v' /\ datomic m1 d1 o1 f1 h2 m' d' o' f'.
Proof.
  intros H Ht.
  destruct (datomic_next (fun _ _ => True) (fun _ _ _ _ => I) (fun _ _ _ => I) t _ _ _ _ _ _ _ _ _ _ H I)
    as (m2 & f2 & _ & _ & H2). clear H.
  apply datomic_split in H2 as (m3 & d3 & o3 & f3 & H2 & H3).
  set (Q := fun (m : smap) (s : lst) => s = LPending (OpInsert k v) \/
    exists o v', s = LDone o /\ m k = Some v' /\ (o = OInserted -> v' = v)).
  assert (Q1 : forall m s c, Q m s -> Q (fst (spec_step m c)) s).
  { intros m0 s c [->|(o0 & v' & -> & Hk & Ho)]; [left; auto|right]. exists o0, v'. splits; auto. apply spec_keeps; auto. }
  assert (Q2 : forall m c, Q m (LPending c) -> Q (fst (spec_step m c)) (LDone (snd (spec_step m c)))).
  { intros m0 c [E|(o0 & v' & E & _)]; [|discriminate]. injection E as ->. right. cbn [spec_step].
    destruct (m0 k) as [v0|] eqn:E; cbn [fst snd].
    - exists OKeyExists, v0. splits; auto. discriminate.
    - exists OInserted, v. splits; auto. unfold sput. rewrite beq_refl. auto. }
  assert (HQ : Q m3 (f3 t)).
  { eapply (datomic_track Q Q1 Q2 t); eauto. left. unfold lset. rewrite N.eqb_refl. auto. }
  destruct (datomic_next Q Q1 Q2 t _ _ _ _ _ _ _ _ _ _ H3 HQ) as (m4 & f4 & HQ4 & Hf4 & H4).
  destruct HQ4 as [E|(o0 & v' & E & Hk & Ho)]; rewrite Hf4 in E; [discriminate|]. injection E as <-.
  exists v', m4, d3, o3. eexists. splits; eauto.
Qed.

(** A fetch finds what is in the map. *)
Lemma datomic_fetch u k v r h1 h2 m d o f m' d' o' f' :
  datomic m d o f (DEv (HCall u (OpFetch k)) :: h1 ++ DEv (HRet u r) :: h2) m' d' o' f' -> dquiet u h1 ->
  m k = Some v -> r = OFound v.
Proof.
  intros H Hu Hk.
  set (K := fun (m : smap) (s : lst) => m k = Some v).
  assert (K1 : forall m s c, K m s -> K (fst (spec_step m c)) s) by (intros m0 s c; unfold K; apply spec_keeps).
  assert (K2 : forall m c, K m (LPending c) -> K (fst (spec_step m c)) (LDone (snd (spec_step m c))))
    by (intros m0 c; unfold K; apply spec_keeps).
  destruct (datomic_next K K1 K2 u _ _ _ _ _ _ _ _ _ _ H Hk) as (m6 & f6 & Hk6 & _ & H6). unfold K in Hk6.
  apply datomic_split in H6 as (m7 & d7 & o7 & f7 & H6 & H7).
  set (R := fun (m : smap) (s : lst) => m k = Some v /\ (s = LPending (OpFetch k) \/ s = LDone (OFound v))).
  assert (R1 : forall m s c, R m s -> R (fst (spec_step m c)) s).
  { intros m0 s c [A B]. split; auto. apply spec_keeps; auto. }
  assert (R2 : forall m c, R m (LPending c) -> R (fst (spec_step m c)) (LDone (snd (spec_step m c)))).
  { intros m0 c [A [E|E]]; [|discriminate]. injection E as ->. split; [apply spec_keeps; auto|]. right.
    cbn [spec_step]. rewrite A. auto. }
  assert (HR : R m7 (f7 u)).
  { eapply (datomic_track R R1 R2 u); eauto. split; auto. left. unfold lset. rewrite N.eqb_refl. auto. }
  destruct (datomic_next R R1 R2 u _ _ _ _ _ _ _ _ _ _ H7 HR) as (m8 & f8 & [_ HR8] & Hf8 & _).
  rewrite Hf8 in HR8. destruct HR8 as [E|E]; [discriminate|]. injection E as ->. auto.
Qed.

(** An insert that was answered before a flush began that has ended is found for ever. *)
Lemma saved_then_fetch t k v r u r' h1 h2 h3 h4 h5 h6 h7 :
  durably_linearizable
    (h1 ++ DEv (HCall t (OpInsert k v)) :: h2 ++ DEv (HRet t r) :: h3 ++ DBegin :: h4 ++ DEnd :: h5 ++
     DEv (HCall u (OpFetch k)) :: h6 ++ DEv (HRet u r') :: h7) ->
  dquiet t h2 -> running h3 -> running h4 -> dquiet u h6 ->
  exists v', r' = OFound v' /\ (r = OInserted -> v' = v).
Proof.
  intros (m' & d' & o' & f' & H) Q2 Q3 Q4 Q6.
  apply datomic_split in H as (m1 & d1 & o1 & f1 & _ & H).
  apply datomic_insert in H as (v' & m2 & d2 & o2 & f2 & Hv & Hk2 & H); auto.
  apply datomic_split in H as (m3 & d3 & o3 & f3 & H3 & H).
  pose proof (datomic_keeps k v' _ _ _ _ _ _ _ _ _ Q3 H3 Hk2) as Hk3.
  apply (datomic_begin k v') in H as (m4 & f4 & Hk4 & H); auto.
  apply datomic_split in H as (m5 & d5 & o5 & f5 & H5 & H).
  destruct (datomic_held k v' _ _ _ _ _ _ _ _ _ Q4 H5) as [Hk5 Ho5].
  { split; auto. intros x E; injection E as <-; auto. }
  apply (datomic_end k v') in H as (m6 & d6 & f6 & Hk6 & Hd6 & H); auto.
  apply datomic_split in H as (m7 & d7 & o7 & f7 & H7 & H).
  destruct (datomic_saved k v' _ _ _ _ _ _ _ _ _ H7) as (Hk7 & _). { splits; auto. discriminate. }
  exists v'. split; auto. eapply datomic_fetch; eauto.
Qed.

(** Without a stop in between no flush is needed. *)
Lemma unsaved_then_fetch t k v r u r' h1 h2 h3 h4 h5 :
  durably_linearizable
    (h1 ++ DEv (HCall t (OpInsert k v)) :: h2 ++ DEv (HRet t r) :: h3 ++
     DEv (HCall u (OpFetch k)) :: h4 ++ DEv (HRet u r') :: h5) ->
  dquiet t h2 -> running h3 -> dquiet u h4 ->
  exists v', r' = OFound v' /\ (r = OInserted -> v' = v).
Proof.
  intros (m' & d' & o' & f' & H) Q2 Q3 Q4.
  apply datomic_split in H as (m1 & d1 & o1 & f1 & _ & H).
  apply datomic_insert in H as (v' & m2 & d2 & o2 & f2 & Hv & Hk2 & H); auto.
  apply datomic_split in H as (m3 & d3 & o3 & f3 & H3 & H).
  pose proof (datomic_keeps k v' _ _ _ _ _ _ _ _ _ Q3 H3 Hk2) as Hk3.
  exists v'. split; auto. eapply datomic_fetch; eauto.
Qed.

(** Whatever is found has been given to an insert with that key. *)
Section Found.
Variable h : list dev.
Definition G (k v : bytes) : Prop := exists u, In (DEv (HCall u (OpInsert k v))) h.
Definition sound (m d : smap) (o : option smap) (f : N -> lst) : Prop :=
  (forall k v, m k = Some v -> G k v) /\ (forall k v, d k = Some v -> G k v) /\
  (forall x, o = Some x -> forall k v, x k = Some v -> G k v) /\
  (forall t k v, f t = LPending (OpInsert k v) -> G k v).

Lemma sound_call m d o f u c : In (DEv (HCall u c)) h -> sound m d o f -> sound m d o (lset f u (LPending c)).
Proof using Type.
  intros Hi (A & B & C & D). unfold sound; splits; auto. intros w k v. unfold lset. destruct (w =? u); [|apply D].
  intros E; injection E as ->. exists u. auto.
Qed.
Lemma sound_effect m d o f u c : f u = LPending c -> sound m d o f ->
  sound (fst (spec_step m c)) d o (lset f u (LDone (snd (spec_step m c)))).
Proof using Type.
  intros Hf (A & B & C & D). unfold sound; splits; auto.
  - intros k1 v1. destruct c as [k2 v2|k2| |]; cbn [spec_step fst]; auto.
    + destruct (m k2) eqn:E; cbn [fst]; auto. unfold sput. destruct (beq k2 k1) eqn:X; auto.
      apply beq_eq in X. subst k2. intros E1; injection E1 as <-. eapply D; eauto.
    + destruct (m k2); auto.
  - intros w k1 v1. unfold lset. destruct (w =? u); [discriminate|apply D].
Qed.
Lemma sound_ret m d o f u : sound m d o f -> sound m d o (lset f u LIdle).
Proof using Type.
  intros (A & B & C & D). unfold sound; splits; auto. intros w k v. unfold lset. destruct (w =? u); [discriminate|apply D].
Qed.
Lemma sound_begin m d f : sound m d None f -> sound m d (Some m) f.
Proof using Type. intros (A & B & C & D). unfold sound; splits; auto. intros x E; injection E as <-; auto. Qed.
Lemma sound_end m d x f : sound m d (Some x) f -> sound m x None f.
Proof using Type. intros (A & B & C & D). unfold sound; splits; eauto. intros; discriminate. Qed.
Lemma sound_lost m d o f : sound m d o f -> sound d d None (fun _ => LIdle).
Proof using Type. intros (A & B & C & D). unfold sound; splits; eauto; intros; discriminate. Qed.
Lemma sound_kept m d x f : sound m d (Some x) f -> sound x x None (fun _ => LIdle).
Proof using Type. intros (A & B & C & D). unfold sound; splits; eauto; intros; discriminate. Qed.

Lemma datomic_sound m d o f h0 m1 d1 o1 f1 :
  datomic m d o f h0 m1 d1 o1 f1 -> (forall ev, In ev h0 -> In ev h) -> sound m d o f -> sound m1 d1 o1 f1.
Proof using Type.
  intros H. induction H as [m d o f|m d o f u c h0 m1 d1 o1 f1 Hf H IH|m d o f u c h0 m1 d1 o1 f1 Hf H IH|
    m d o f u r h0 m1 d1 o1 f1 Hf H IH|m d f h0 m1 d1 o1 f1 H IH|m d x f h0 m1 d1 o1 f1 H IH|
    m d o f h0 m1 d1 o1 f1 H IH|m d x f h0 m1 d1 o1 f1 H IH]; intros Hi Hs; auto;
    (apply IH; [intros ev He; apply Hi; first [exact He|right; exact He]|]).
  - apply sound_call; auto. apply Hi. left. auto.
  - apply sound_effect; auto.
  - apply sound_ret; auto.
  - apply sound_begin; auto.
  - eapply sound_end; eauto.
  - eapply sound_lost; eauto.
  - eapply sound_kept; eauto.
Qed.

(** The thread in a fetch of [k] has found nothing, or one of these. *)
Definition fetching (k : bytes) (s : lst) : Prop :=
  s = LPending (OpFetch k) \/ exists r, s = LDone r /\ forall v, r = OFound v -> G k v.

Lemma fetching_effect k t m d o f u c : f u = LPending c -> sound m d o f -> fetching k (f t) ->
  fetching k (lset f u (LDone (snd (spec_step m c))) t).
Proof using Type.
  intros Hf Hs Hq. unfold lset. destruct (N.eqb_spec t u) as [->|]; auto. rewrite Hf in Hq.
  destruct Hq as [E|(r & E & _)]; [|discriminate]. injection E as ->. right. eexists. split; [reflexivity|].
  intros v. cbn [spec_step snd]. destruct (m k) eqn:E; cbn [snd]; [|discriminate]. intros E1; injection E1 as <-.
  apply (proj1 Hs). auto.
Qed.

Lemma datomic_fetching k t m d o f h0 m1 d1 o1 f1 : dquiet t h0 ->
  datomic m d o f h0 m1 d1 o1 f1 -> (forall ev, In ev h0 -> In ev h) -> sound m d o f -> fetching k (f t) ->
  fetching k (f1 t).
Proof using Type.
  intros Hq H. induction H as [m d o f|m d o f u c h0 m1 d1 o1 f1 Hf H IH|m d o f u c h0 m1 d1 o1 f1 Hf H IH|
    m d o f u r h0 m1 d1 o1 f1 Hf H IH|m d f h0 m1 d1 o1 f1 H IH|m d x f h0 m1 d1 o1 f1 H IH|
    m d o f h0 m1 d1 o1 f1 H IH|m d x f h0 m1 d1 o1 f1 H IH]; intros Hi Hs Ht; auto.
  - inversion Hq as [|? ? Hw Hq']; subst. cbn [who] in Hw. apply IH; auto.
    + intros ev He; apply Hi; right; exact He.
    + apply sound_call; auto. apply Hi. left. auto.
    + unfold lset. replace (t =? u) with false by lia. auto.
  - apply IH; auto; [apply sound_effect; auto|eapply fetching_effect; eauto].
  - inversion Hq as [|? ? Hw Hq']; subst. cbn [who] in Hw. apply IH; auto.
    + intros ev He; apply Hi; right; exact He.
    + apply sound_ret; auto.
    + unfold lset. replace (t =? u) with false by lia. auto.
  - inversion Hq as [|? ? Hw Hq']; subst. apply IH; auto; [|apply sound_begin; auto].
    intros ev He; apply Hi; right; exact He.
  - inversion Hq as [|? ? Hw Hq']; subst. apply IH; auto; [|eapply sound_end; eauto].
    intros ev He; apply Hi; right; exact He.
  - inversion Hq as [|? ? Hw Hq']; subst. contradiction.
  - inversion Hq as [|? ? Hw Hq']; subst. contradiction.
Qed.

Lemma sound_start : sound sempty sempty None (fun _ => LIdle).
Proof using Type. unfold sound; splits; intros; discriminate. Qed.

Lemma found_next k t r m d o f h0 m1 d1 o1 f1 :
  datomic m d o f (DEv (HRet t r) :: h0) m1 d1 o1 f1 -> sound m d o f -> fetching k (f t) ->
  forall v, r = OFound v -> G k v.
Proof using Type.
  intros H. remember (DEv (HRet t r) :: h0) as hh eqn:Eh.
  induction H as [m d o f|m d o f u c h' m' d' o' f' Hf H IH|m d o f u c h' m' d' o' f' Hf H IH|
    m d o f u r' h' m' d' o' f' Hf H IH|m d f h' m' d' o' f' H IH|m d m0 f h' m' d' o' f' H IH|
    m d o f h' m' d' o' f' H IH|m d m0 f h' m' d' o' f' H IH]; intros Hs Ht; try discriminate.
  - apply IH; auto; [apply sound_effect; auto|eapply fetching_effect; eauto].
  - injection Eh as -> -> ->. rewrite Hf in Ht. destruct Ht as [E|(r0 & E & X)]; [discriminate|].
    injection E as <-. exact X.
Qed.
Lemma found_call t c m d o f h0 m1 d1 o1 f1 :
  datomic m d o f (DEv (HCall t c) :: h0) m1 d1 o1 f1 -> In (DEv (HCall t c)) h \/ (forall k v, c <> OpInsert k v) ->
  sound m d o f ->
  exists m2 f2, sound m2 d o f2 /\ f2 t = LPending c /\ datomic m2 d o f2 h0 m1 d1 o1 f1.
Proof using Type.
  intros H. remember (DEv (HCall t c) :: h0) as hh eqn:Eh.
  induction H as [m d o f|m d o f u c' h' m' d' o' f' Hf H IH|m d o f u c' h' m' d' o' f' Hf H IH|
    m d o f u r' h' m' d' o' f' Hf H IH|m d f h' m' d' o' f' H IH|m d m0 f h' m' d' o' f' H IH|
    m d o f h' m' d' o' f' H IH|m d m0 f h' m' d' o' f' H IH]; intros Hi Hs; try discriminate.
  - injection Eh as -> -> ->. exists m, (lset f t (LPending c)). splits; auto.
    + destruct Hi as [Hi|Hi]; [apply sound_call; auto|]. destruct Hs as (A & B & C & D).
      unfold sound; splits; auto. intros w k v. unfold lset. destruct (w =? t); [|apply D].
      intros E; injection E as E. exfalso. exact (Hi _ _ E).
    + unfold lset. rewrite N.eqb_refl. auto.
  - apply IH; auto. apply sound_effect; auto.
Qed.
End Found.

Lemma durable_found t k v h1 h2 h3 :
  durably_linearizable (h1 ++ DEv (HCall t (OpFetch k)) :: h2 ++ DEv (HRet t (OFound v)) :: h3) -> dquiet t h2 ->
  exists u, In (DEv (HCall u (OpInsert k v))) (h1 ++ h2).
Proof.
  intros (m' & d' & o' & f' & H) Hq.
  apply datomic_split in H as (m1 & d1 & o1 & f1 & H1 & H).
  pose proof (datomic_sound (h1 ++ h2) _ _ _ _ _ _ _ _ _ H1
    (fun ev He => in_or_app h1 h2 ev (or_introl He)) (sound_start _)) as S1.
  assert (Hni : forall k0 v0, OpFetch k <> OpInsert k0 v0) by (intros; discriminate).
  destruct (found_call (h1 ++ h2) _ _ _ _ _ _ _ _ _ _ _ H (or_intror Hni) S1)
    as (m2 & f2 & S2 & Hf2 & H2).
  apply datomic_split in H2 as (m3 & d3 & o3 & f3 & H2 & H3).
  assert (Hin : forall ev, In ev h2 -> In ev (h1 ++ h2)) by (intros ev He; apply in_or_app; auto).
  pose proof (datomic_sound _ _ _ _ _ _ _ _ _ _ H2 Hin S2) as S3.
  pose proof (datomic_fetching _ k t _ _ _ _ _ _ _ _ _ Hq H2 Hin S2 (or_introl Hf2)) as F3.
  exact (found_next _ k t _ _ _ _ _ _ _ _ _ _ H3 S3 F3 v eq_refl).
Qed.
