(** Reasoning about all the points at which a program may be stopped. *)
From Verif Require Import Model.Bytes Model.Err Model.IO Model.Bucket Model.Recover Model.Crash
  Proofs.BytesFacts Proofs.IOFacts Proofs.BulkFacts Proofs.Table Proofs.CommitFacts.

(** Wherever [p] is stopped the files satisfy [G]; if it is not stopped then [Q]. *)
Fixpoint safe (ord : fname -> bool) (G : world -> Prop) {A} (p : prog A) (w : world) (S : surv)
    (Q : A -> world -> surv -> Prop) : Prop :=
  (forall w', on_disk S w' -> G w') /\
  match p with
  | Ret a => Q a w S
  | Do o k => safe ord G (k (snd (exec o w))) (fst (exec o w)) (sexec ord o w S) Q
  end.

Section Safe.
Variable ord : fname -> bool.

Lemma safe_here G {A} (p : prog A) w S Q : safe ord G p w S Q -> forall w', on_disk S w' -> G w'.
Proof. destruct p; simpl; tauto. Qed.

Lemma safe_crash G {A} (p : prog A) w S Q w' :
  safe ord G p w S Q -> crash ord p w S w' -> G w'.
Proof.
  intros Hs (p1 & w1 & S1 & Hst & Hd). revert Hs. induction Hst; intros Hs.
  - eapply safe_here; eauto.
  - apply IHHst; auto. simpl in Hs. tauto.
Qed.

Lemma run_do {A} o (k : rsp -> prog A) w : run (Do o k) w = run (k (snd (exec o w))) (fst (exec o w)).
Proof. simpl. destruct (exec o w); reflexivity. Qed.

Lemma safe_run G {A} (p : prog A) w S Q w' a :
  safe ord G p w S Q -> run p w = (w', a) -> Q a w' (srun ord p w S).
Proof.
  revert w S. induction p as [a0|o k IH]; intros w S Hs Hr.
  - simpl in *. injection Hr; intros; subst. tauto.
  - rewrite run_do in Hr. simpl in Hs |- *. apply (IH _ _ _ (proj2 Hs) Hr).
Qed.

Lemma safe_bind G {A B} (p : prog A) (f : A -> prog B) w S Q :
  safe ord G p w S (fun a w' S' => safe ord G (f a) w' S' Q) -> safe ord G (bind p f) w S Q.
Proof.
  revert w S. induction p as [a|o k IH]; intros w S Hs.
  - simpl in Hs. tauto.
  - simpl in *. split; [tauto|]. apply IH. tauto.
Qed.

Lemma safe_weaken G (G' : world -> Prop) {A} (p : prog A) w S Q (Q' : A -> world -> surv -> Prop) :
  safe ord G p w S Q -> (forall w', G w' -> G' w') -> (forall a w' S', Q a w' S' -> Q' a w' S') ->
  safe ord G' p w S Q'.
Proof.
  intros Hs HG HQ. revert w S Hs. induction p as [a|o k IH]; intros w S Hs; simpl in *.
  - split; [|apply HQ; tauto]. intros w' Hw. apply HG. apply (proj1 Hs); auto.
  - split; [|apply IH; tauto]. intros w' Hw. apply HG. apply (proj1 Hs); auto.
Qed.

Lemma safe_with_run G {A} (p : prog A) w S Q :
  safe ord G p w S Q ->
  safe ord G p w S (fun a w' S' => Q a w' S' /\ run p w = (w', a) /\ S' = srun ord p w S).
Proof.
  revert w S. induction p as [a|o k IH]; intros w S Hs.
  - simpl in *. tauto.
  - simpl in Hs |- *. split; [tauto|]. eapply safe_weaken; [apply IH; apply Hs|auto|].
    cbv beta. intros a w' S' (H1 & H2 & H3). splits; auto. rewrite <- H2. destruct (exec o w); reflexivity.
Qed.

Lemma safe_ebind G {A B} (p : prog (res A)) (f : A -> prog (res B)) w S Q :
  safe ord G p w S (fun r w' S' =>
    match r with Ok a => safe ord G (f a) w' S' Q | Er er => (forall v, on_disk S' v -> G v) /\ Q (Er er) w' S' end) ->
  safe ord G (ebind p f) w S Q.
Proof.
  intros Hs. unfold ebind. apply safe_bind. eapply safe_weaken; [exact Hs|auto|].
  intros [a|er] w' S' H; simpl; auto.
Qed.

(** When the outcome of the first part is known. *)
Lemma safe_bind_run G {A B} (p : prog A) (f : A -> prog B) w S w1 a Q Q1 :
  run p w = (w1, a) -> safe ord G p w S Q1 ->
  (forall S1, Q1 a w1 S1 -> safe ord G (f a) w1 S1 Q) ->
  safe ord G (bind p f) w S Q.
Proof.
  intros Hr Hs Hf. apply safe_bind. eapply safe_weaken; [apply safe_with_run; exact Hs|auto|].
  cbv beta. intros a' w' S' (H1 & H2 & _). rewrite Hr in H2. injection H2; intros; subst. auto.
Qed.

Lemma safe_ebind_run G {A B} (p : prog (res A)) (f : A -> prog (res B)) w S w1 a Q Q1 :
  run p w = (w1, Ok a) -> safe ord G p w S Q1 ->
  (forall S1, Q1 (Ok a) w1 S1 -> safe ord G (f a) w1 S1 Q) ->
  safe ord G (ebind p f) w S Q.
Proof. intros Hr Hs Hf. unfold ebind. eapply safe_bind_run; eauto. Qed.

Lemma safe_ebind_er G {A B} (p : prog (res A)) (f : A -> prog (res B)) w S w1 er Q Q1 :
  run p w = (w1, Er er) -> safe ord G p w S Q1 ->
  (forall S1, Q1 (Er er) w1 S1 -> (forall v, on_disk S1 v -> G v) /\ Q (Er er) w1 S1) ->
  safe ord G (ebind p f) w S Q.
Proof. intros Hr Hs Hf. unfold ebind. eapply safe_bind_run; eauto. Qed.

(** ** Programs all of whose operations satisfy [P] and whose result satisfies [R],
    whatever the answers *)
Inductive allops (P : io -> Prop) {A} (R : A -> Prop) : prog A -> Prop :=
| ao_ret a : R a -> allops P R (Ret a)
| ao_do o k : P o -> (forall r, allops P R (k r)) -> allops P R (Do o k).

Definition anyres {A} (a : A) : Prop := True.
(** The result of a program that succeeds. *)
Definition okres {A} (R : A -> Prop) (r : res A) : Prop :=
  match r with Ok a => R a | Er _ => True end.

Lemma ao_bind P {A B} (R : A -> Prop) (R' : B -> Prop) (p : prog A) (f : A -> prog B) :
  allops P R p -> (forall a, R a -> allops P R' (f a)) -> allops P R' (bind p f).
Proof. intros Hp Hf. induction Hp; simpl; [apply Hf; auto|constructor; auto]. Qed.
Lemma ao_ebind P {A B} (R : A -> Prop) (R' : B -> Prop) (p : prog (res A)) (f : A -> prog (res B)) :
  allops P (okres R) p -> (forall a, R a -> allops P (okres R') (f a)) -> allops P (okres R') (ebind p f).
Proof. intros Hp Hf. eapply ao_bind; eauto. intros [a|e] Ha; simpl in *; auto. constructor. exact I. Qed.
Lemma ao_unit (P : io -> Prop) o : P o -> allops P (okres anyres) (do_unit o).
Proof. intros. constructor; auto. intros [er|n d]; constructor; exact I. Qed.
Lemma ao_num (P : io -> Prop) o : P o -> allops P (okres anyres) (do_num o).
Proof. intros. constructor; auto. intros [er|n d]; constructor; exact I. Qed.
Lemma ao_data (P : io -> Prop) o : P o -> allops P (okres anyres) (do_data o).
Proof. intros. constructor; auto. intros [er|n d]; constructor; exact I. Qed.
Lemma ao_pret P {A} (R : A -> Prop) (a : A) : R a -> allops P (okres R) (pret a).
Proof. intros. constructor. auto. Qed.
Lemma ao_pfail P {A} (R : A -> Prop) er : allops P (okres R) (pfail er).
Proof. intros. constructor. exact I. Qed.
Lemma ao_lift P {A} (R : A -> Prop) (r : res A) : okres R r -> allops P (okres R) (plift r).
Proof. intros. constructor. auto. Qed.

Lemma ao_iterp P {St T} (I : St -> Prop) (R : T -> Prop) (step : St -> prog (St + T)) (n : positive) :
  let R' := fun r => match r with inl s => I s | inr x => R x end in
  (forall s, I s -> allops P R' (step s)) -> forall s, I s -> allops P R' (iterp n step s).
Proof.
  intros R' Hs. induction n as [q IH|q IH|]; intros s Hi; simpl; auto.
  - eapply ao_bind; eauto. intros [s'|x] Hx; [|constructor; auto].
    eapply ao_bind; eauto. intros [s2|x] Hx2; [auto|constructor; auto].
  - eapply ao_bind; eauto. intros [s'|x] Hx; [auto|constructor; auto].
Qed.
Lemma ao_loop P {St T} (I : St -> Prop) (R : T -> Prop) (step : St -> prog (St + res T)) s :
  (forall s, I s -> allops P (fun r => match r with inl s => I s | inr x => okres R x end) (step s)) ->
  I s -> allops P (okres R) (loop step s).
Proof.
  intros Hs Hi. unfold loop. eapply ao_bind; [apply (ao_iterp P I (okres R)); auto|].
  intros [x|x] Hx; constructor; simpl; auto.
Qed.

Lemma ao_weaken (P P' : io -> Prop) {A} (R R' : A -> Prop) (p : prog A) :
  allops P R p -> (forall o, P o -> P' o) -> (forall a, R a -> R' a) -> allops P' R' p.
Proof. intros Hp Himp Hr. induction Hp; constructor; auto. Qed.

(** An invariant kept by all the operations of a program. *)
Lemma safe_inv (G : world -> Prop) (P : io -> Prop) (I : world -> surv -> Prop) {A} (wf : world) (a : A) :
  (forall o w S, P o -> I w S -> I (fst (exec o w)) (sexec ord o w S)) ->
  (forall (q : prog A) w S, allops P anyres q -> run q w = (wf, a) -> I w S -> forall v, on_disk S v -> G v) ->
  forall p w S, allops P anyres p -> run p w = (wf, a) -> I w S -> safe ord G p w S (fun _ w' S' => I w' S').
Proof.
  intros HI HG p. induction p as [b|o k IH]; intros w S Ha Hr Hi.
  - simpl. split; auto. apply (HG _ _ _ Ha Hr Hi).
  - simpl. split; [apply (HG _ _ _ Ha Hr Hi)|].
    inversion Ha; subst. apply IH; auto. rewrite run_do in Hr. auto.
Qed.

Lemma safe_inv' (G : world -> Prop) (P : io -> Prop) (I : world -> surv -> Prop) {A} :
  (forall o w S, P o -> I w S -> I (fst (exec o w)) (sexec ord o w S)) ->
  (forall w S, I w S -> forall v, on_disk S v -> G v) ->
  forall (p : prog A) w S, allops P anyres p -> I w S -> safe ord G p w S (fun _ w' S' => I w' S').
Proof.
  intros HI HG p. induction p as [b|o k IH]; intros w S Ha Hi.
  - simpl. split; auto. apply (HG _ _ Hi).
  - simpl. split; [apply (HG _ _ Hi)|]. inversion Ha; subst. apply IH; auto.
Qed.

(** Operations that do not change files. *)
Definition io_pure (o : io) : Prop :=
  match o with IoOpen _ | IoSize _ | IoRead _ _ _ => True | _ => False end.

Lemma pure_exec o w : io_pure o -> fst (exec o w) = w.
Proof using.
  clear ord. destruct o as [f|f|f|f|f off len|f ap off d|f|f n]; simpl; intros H; try contradiction H;
    destruct (wget w f) as [c|]; auto.
  destruct ((len =? 0) || (off + len <=? blen c)); auto.
Qed.
Lemma pure_sexec o w S : io_pure o -> sexec ord o w S = S.
Proof. destruct o; simpl; tauto. Qed.

Lemma safe_pure (G : world -> Prop) {A} (p : prog A) w S :
  allops io_pure anyres p -> (forall v, on_disk S v -> G v) ->
  safe ord G p w S (fun _ w' S' => w' = w /\ S' = S).
Proof.
  intros Ha HG. apply (safe_inv' G io_pure (fun w' S' => w' = w /\ S' = S)); auto.
  - intros o w' S' Ho (-> & ->). rewrite pure_exec, pure_sexec; auto.
  - intros w' S' (_ & ->). auto.
Qed.

(** Stepping over a part that changes nothing and whose outcome is known. *)
Lemma safe_skip (G : world -> Prop) {A B} (p : prog A) (f : A -> prog B) w S a Q :
  run p w = (w, a) -> allops io_pure anyres p -> (forall v, on_disk S v -> G v) ->
  safe ord G (f a) w S Q -> safe ord G (bind p f) w S Q.
Proof.
  intros Hr Ha HG Hf. eapply safe_bind_run; [exact Hr|apply safe_pure; auto|].
  cbv beta. intros S1 (_ & ->). auto.
Qed.
Lemma safe_eskip (G : world -> Prop) {A B} (p : prog (res A)) (f : A -> prog (res B)) w S a Q :
  run p w = (w, Ok a) -> allops io_pure anyres p -> (forall v, on_disk S v -> G v) ->
  safe ord G (f a) w S Q -> safe ord G (ebind p f) w S Q.
Proof. intros Hr Ha HG Hf. unfold ebind. eapply safe_skip; eauto. Qed.

(** What the running system sees may be what is found after a stop. *)
Lemma sset_same S f P : sset S f P f = P.
Proof. destruct f; reflexivity. Qed.
Lemma sset_other S f g P : f <> g -> sset S f P g = S g.
Proof. destruct f, g; intros; try congruence; reflexivity. Qed.

Lemma nthN_zeros n i : nthN (zeros n) i 0 = 0.
Proof.
  unfold nthN, zeros. generalize (N.to_nat i). induction (N.to_nat n) as [|k IH]; intros [|j]; simpl; auto.
Qed.
Lemma nthN_over {A} (l : list A) i d : blen l <= i -> nthN l i d = d.
Proof. intros. unfold nthN. apply nth_overflow. unfold blen in *. lia. Qed.
Lemma nthN_pad y n i : nthN (y ++ zeros n) i 0 = nthN y i 0.
Proof.
  destruct (N.lt_ge_cases i (blen y)) as [H|H].
  - apply nthN_app_l. auto.
  - rewrite nthN_app_r by auto. rewrite nthN_zeros, nthN_over; auto.
Qed.

Lemma blen_bwrite_max off d y : blen (bwrite off d y) = N.max (blen y) (off + blen d).
Proof. unfold bwrite. rewrite !blen_app, blen_btake, blen_bdrop, blen_app, blen_zeros. lia. Qed.
Lemma blen_btrunc n y : blen (btrunc n y) = n.
Proof. unfold btrunc. rewrite blen_app, blen_btake, blen_zeros. lia. Qed.

(** Every byte of a written file. *)
Lemma nthN_bwrite off d y i :
  nthN (bwrite off d y) i 0 =
  if (off <=? i) && (i <? off + blen d) then nthN d (i - off) 0 else nthN y i 0.
Proof.
  unfold bwrite. set (z := y ++ zeros (off - blen y)).
  assert (Lz : blen z = N.max (blen y) off) by (unfold z; rewrite blen_app, blen_zeros; lia).
  assert (Lt : blen (btake off z) = off) by (rewrite blen_btake; lia).
  assert (Nz : forall j, nthN z j 0 = nthN y j 0) by (intros; apply nthN_pad).
  destruct (N.leb_spec off i) as [H|H]; simpl.
  - rewrite nthN_app_r, Lt by lia.
    destruct (N.ltb_spec i (off + blen d)) as [H2|H2].
    + apply nthN_app_l. lia.
    + rewrite nthN_app_r by lia. rewrite nthN_bdrop, Nz. f_equal. lia.
  - rewrite nthN_app_l by lia. rewrite nthN_btake by lia. apply Nz.
Qed.
Lemma nthN_btrunc n y i : nthN (btrunc n y) i 0 = if i <? n then nthN y i 0 else 0.
Proof.
  unfold btrunc. rewrite nthN_pad. destruct (N.ltb_spec i n) as [H|H].
  - apply nthN_btake. auto.
  - apply nthN_over. rewrite blen_btake. lia.
Qed.

Lemma torn_write_full off d y : torn_write off (blen d) y (bwrite off d y).
Proof.
  split; [rewrite blen_bwrite_max; lia|].
  intros i Hi Ho. rewrite nthN_bwrite.
  destruct ((off <=? i) && (i <? off + blen d)) eqn:E; auto. lia.
Qed.

Lemma torn_trunc_full n y : torn_trunc n y (btrunc n y).
Proof.
  split; [rewrite blen_btrunc; lia|].
  intros i Hi Ho. rewrite blen_btrunc in Ho. rewrite nthN_btrunc. replace (i <? n) with true by lia. auto.
Qed.

Lemma live_on_disk o w S : on_disk S w -> on_disk (sexec ord o w S) (fst (exec o w)).
Proof.
  intros H. pose proof H as Hg.
  assert (U : forall f c (P : option bytes -> Prop), S f (wget w f) -> P c -> on_disk (sset S f P) (wset w f c)).
  { intros f c P _ Hc g. unfold sset. destruct f, g; simpl; auto; apply H. }
  assert (K : forall f (P : option bytes -> Prop), P (wget w f) -> on_disk (sset S f P) w).
  { intros f P Hc g. unfold sset. destruct f, g; simpl; auto; try apply H. }
  destruct o as [f|f|f|f|f off len|f ap off d|f|f n]; simpl; destruct (wget w f) as [x|] eqn:E; simpl; auto.
  - destruct ((len =? 0) || (off + len <=? blen x)); auto.
  - destruct (ap && negb (off =? blen x)); simpl; auto. apply U; auto. right.
    destruct (ord f).
    + exists (blen d). rewrite btake_all by lia. auto.
    + exists x, (bwrite off d x). rewrite <- E. splits; auto. apply torn_write_full.
  - apply U; auto. right. destruct (ord f); auto.
    exists x, (btrunc n x). rewrite <- E. splits; auto. apply torn_trunc_full.
Qed.

Lemma live_failed o w S w' : on_disk S w -> failed ord o w w' -> on_disk (sfail ord o w S) w'.
Proof.
  intros H Hf.
  assert (U : forall f c (P : option bytes -> Prop), P c -> on_disk (sset S f P) (wset w f c)).
  { intros f c P Hc g. unfold sset. destruct f, g; simpl; auto; apply H. }
  assert (K : forall f (P : option bytes -> Prop), P (wget w f) -> on_disk (sset S f P) w).
  { intros f P Hc g. unfold sset. destruct f, g; simpl; auto; try apply H. }
  destruct o as [f|f|f|f|f off len|f ap off d|f|f n]; simpl in *; try (subst w'; auto; fail).
  - destruct (wget w f) as [x|] eqn:E; simpl in Hf; [destruct Hf; subst; auto|].
    destruct Hf as [->| ->]; [apply K|apply U; auto]. left. rewrite E. rewrite <- E. auto.
  - destruct (wget w f) as [x|] eqn:E; simpl in Hf; [|destruct Hf; subst; auto].
    destruct Hf as [->| ->]; [apply K|apply U; auto]. left. rewrite E. rewrite <- E. auto.
  - destruct (wget w f) as [x|] eqn:E; [|subst; auto].
    destruct (ap && negb (off =? blen x)); [subst; auto|].
    destruct Hf as (x' & -> & Hx). apply U. destruct (ord f).
    + destruct Hx as [->|(n & ->)]; [left; rewrite <- E; auto|right; eauto].
    + right. exists x, x'. rewrite <- E. auto.
  - destruct (wget w f) as [x|] eqn:E; [|subst; auto].
    destruct Hf as (x' & -> & Hx). apply U. destruct (ord f).
    + destruct Hx as [->| ->]; [left; rewrite <- E; auto|right; auto].
    + right. exists x, x'. rewrite <- E. auto.
Qed.

Lemma live_steps {A} (p : prog A) w S p' w' S' :
  steps ord p w S p' w' S' -> on_disk S w -> on_disk S' w'.
Proof. induction 1; auto. intros Hd. apply IHsteps. apply live_on_disk. auto. Qed.

Lemma durable_live w : on_disk (durable w) w.
Proof. intros f. reflexivity. Qed.

(** ** Programs that stop at the first failed operation, with its error *)
Inductive strict {A} : prog (res A) -> Prop :=
| strict_ret r : strict (Ret r)
| strict_do o k :
    (forall er, k (RErr er) = Ret (Er er)) ->
    (forall r, strict (k r)) -> strict (Do o k).

Lemma strict_bind {A B} (p : prog (res A)) (f : res A -> prog (res B)) :
  strict p -> (forall r, strict (f r)) -> (forall er, f (Er er) = Ret (Er er)) ->
  strict (bind p f).
Proof.
  intros Hp Hf He. induction Hp as [r|o k Hk Hr IH]; simpl; auto.
  constructor; auto. intros er. rewrite Hk. simpl. auto.
Qed.
Lemma strict_ebind {A B} (p : prog (res A)) (f : A -> prog (res B)) :
  strict p -> (forall a, strict (f a)) -> strict (ebind p f).
Proof.
  intros Hp Hf. apply strict_bind; eauto. intros [a|er]; [auto|constructor].
Qed.

(** Under failures such a program goes as without failures up to some point and
    possibly fails there. *)
Lemma strict_fsteps {A} (p : prog (res A)) w S p' w' S' :
  strict p -> fsteps ord p w S p' w' S' ->
  steps ord p w S p' w' S' \/
  exists o k w1 S1 n, steps ord p w S (Do o k) w1 S1 /\ failed ord o w1 w' /\
    p' = Ret (Er (EIO n)) /\ S' = sfail ord o w1 S1.
Proof.
  intros Hp Hs. induction Hs as [p w S|o k w S p' w' S' Hs IH|o k w S n w1 p' w' S' Hf Hs IH].
  - left. constructor.
  - inversion Hp; subst. destruct (IH (H2 _)) as [IH'|(o' & k' & w1 & S1 & er & Hst & R)].
    + left. constructor. auto.
    + right. exists o', k', w1, S1, er. split; auto. constructor. auto.
  - right. inversion Hp; subst. rewrite H1 in Hs.
    inversion Hs; subst. exists o, k, w, S, n. splits; auto. constructor.
Qed.

(** So what is found on the disk after failures is what may be found after
    stopping the program. *)
Lemma strict_crash {A} (p : prog (res A)) w S p' w' S' v :
  strict p -> fsteps ord p w S p' w' S' -> on_disk S' v -> crash ord p w S v.
Proof.
  intros Hp Hs Hv. destruct (strict_fsteps _ _ _ _ _ _ Hp Hs) as [H|(o & k & w1 & S1 & er & Hst & Hf & -> & ->)].
  - exists p', w', S'. auto.
  - unfold crash. destruct o as [f|f|f|f|f off len|f ap off d|f|f n];
      try (exists (Do (IoSync f) k), w1, S1; split; auto; fail);
      (match type of Hst with steps _ _ _ _ (Do ?o _) _ _ =>
        exists (k (snd (exec o w1))), (fst (exec o w1)), (sexec ord o w1 S1) end; split; [|exact Hv];
        clear - Hst;
        match type of Hst with steps _ _ _ _ ?q _ _ => remember q as q0 eqn:E end;
        induction Hst; [subst; constructor; constructor|constructor; auto]).
Qed.
End Safe.
