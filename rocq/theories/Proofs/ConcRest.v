(** Calls and flushes come to an end. *)
From Coq Require Import Relation_Operators Transitive_Closure.
From Verif Require Import Model.Bytes Model.Err Model.Format Model.IO Model.Bucket Model.Pool Model.Recover
  Model.Create Model.Store Spec SpecLin SpecDurable SpecFail Model.History Model.Crash Model.Events
  Model.Concurrent Model.ConcCrash Model.ConcFail Model.Rest Proofs.BytesFacts Proofs.StoreInv Proofs.LifeFacts
  Proofs.MapFacts Proofs.LinFacts Proofs.ConcFacts Proofs.ConcInv Proofs.ConcTheorems Proofs.ConcDurable
  Proofs.ConcFailInv Proofs.ConcFailRun Proofs.ConcFailAfter Proofs.FailHist.

(** ** Well-founded orders *)
Definition lex {A B} (RA : A -> A -> Prop) (RB : B -> B -> Prop) (p' p : A * B) : Prop :=
  RA (fst p') (fst p) \/ fst p' = fst p /\ RB (snd p') (snd p).
Lemma lex_wf {A B} (RA : A -> A -> Prop) (RB : B -> B -> Prop) :
  well_founded RA -> well_founded RB -> well_founded (lex RA RB).
Proof.
  intros HA HB [a b]. revert b. induction a as [a IHa] using (well_founded_ind HA). intros b.
  induction b as [b IHb] using (well_founded_ind HB). constructor. intros [a' b'] [H|[H1 H2]]; cbn [fst snd] in *; auto.
  subst a'. auto.
Qed.

Inductive llt {E} (R : E -> E -> Prop) : list E -> list E -> Prop :=
| llt_hd a' a l : R a' a -> llt R (a' :: l) (a :: l)
| llt_tl a l' l : llt R l' l -> llt R (a :: l') (a :: l).
Lemma llt_wf {E} (R : E -> E -> Prop) : well_founded R -> well_founded (llt R).
Proof.
  intros HR l. induction l as [|a l Hl].
  - constructor. intros l' H. inversion H.
  - revert l Hl. induction a as [a IHa] using (well_founded_ind HR). intros l Hl.
    induction Hl as [l Hl IHl]. constructor. intros l' H. inversion H; subst; auto.
    apply IHa; auto. constructor. exact Hl.
Qed.
Lemma map_llt {E} (R : E -> E -> Prop) (f' f : N -> E) A t :
  NoDup A -> In t A -> R (f' t) (f t) -> (forall u, u <> t -> f' u = f u) -> llt R (map f' A) (map f A).
Proof.
  intros Hn Hi HR Ho. induction A as [|a A IH]; [contradiction|]. inversion Hn; subst. cbn [map].
  destruct (N.eq_dec a t) as [->|Hat].
  - rewrite (map_ext_in f' f A); [apply llt_hd; auto|]. intros u Hu. apply Ho. intros ->. contradiction.
  - rewrite (Ho a Hat). apply llt_tl. apply IH; auto. destruct Hi; [congruence|auto].
Qed.

Lemma wf_irrefl {A} (R : A -> A -> Prop) : well_founded R -> forall a, ~ R a a.
Proof. intros H a. induction a as [a IH] using (well_founded_ind H). intros X. exact (IH a X X). Qed.
Lemma wf_no_descent {A} (R : A -> A -> Prop) : well_founded R -> forall s : nat -> A, ~ forall n, R (s (S n)) (s n).
Proof.
  intros H s Hs. assert (X : forall a n, s n = a -> False).
  { intros a. induction a as [a IH] using (well_founded_ind H). intros n <-. exact (IH _ (Hs n) (S n) eq_refl). }
  exact (X _ O eq_refl).
Qed.

Definition blt (b' b : bool) : Prop := b' = false /\ b = true.
Lemma blt_wf : well_founded blt.
Proof.
  assert (H : Acc blt false) by (constructor; intros b [_ X]; discriminate).
  intros [|]; auto. constructor. intros b [-> _]. exact H.
Qed.
Lemma rank_wf {A} (f : A -> N) : well_founded (fun a' a => f a' < f a).
Proof.
  intros a. remember (f a) as n eqn:E. revert a E. induction n as [n IH] using (well_founded_ind N.lt_wf_0).
  intros a ->. constructor. intros a' H. eapply IH; [exact H|reflexivity].
Qed.

(** ** Threads *)
Definition trank (c : cth) : N :=
  match c with
  | CIdle => 0 | CRet _ => 1 | CInsGo _ _ => 2 | CInsD _ _ _ => 3
  | CFetchC _ _ _ | CFetchK _ _ _ | CInsC _ _ _ _ _ | CInsK _ _ _ _ _ => 4
  | CInsLocked _ _ => 5 | CFetch _ | CInsert _ _ => 6
  end.
Inductive tlt : cth -> cth -> Prop :=
| tl_rank c' c : trank c' < trank c -> tlt c' c
| tl_fc n b o q r : tlt (CFetchC n b (q r)) (CFetchC n b (Do o q))
| tl_fk n g o q r : tlt (CFetchK n g (q r)) (CFetchK n g (Do o q))
| tl_ic k v n b o q r : tlt (CInsC k v n b (q r)) (CInsC k v n b (Do o q))
| tl_id k v o q r : tlt (CInsD k v (q r)) (CInsD k v (Do o q))
| tl_ik k v n g o q r : tlt (CInsK k v n g (q r)) (CInsK k v n g (Do o q)).

Lemma tlt_wf : well_founded tlt.
Proof.
  intros c. induction c as [c IH] using (well_founded_ind (rank_wf trank)).
  destruct c as [|k|n b q|n g q|k v|k v|k v n b q|k v q|k v n g q|k v|o];
    try (constructor; intros c' H; inversion H; subst; auto; fail).
  - assert (X : forall c', trank c' < 4 -> Acc tlt c') by exact IH. clear IH.
    induction q as [r|o q IHq]; constructor; intros c' H; inversion H; subst; auto.
  - assert (X : forall c', trank c' < 4 -> Acc tlt c') by exact IH. clear IH.
    induction q as [r|o q IHq]; constructor; intros c' H; inversion H; subst; auto.
  - assert (X : forall c', trank c' < 4 -> Acc tlt c') by exact IH. clear IH.
    induction q as [r|o q IHq]; constructor; intros c' H; inversion H; subst; auto.
  - assert (X : forall c', trank c' < 3 -> Acc tlt c') by exact IH. clear IH.
    induction q as [r|o q IHq]; constructor; intros c' H; inversion H; subst; auto.
  - assert (X : forall c', trank c' < 4 -> Acc tlt c') by exact IH. clear IH.
    induction q as [r|o q IHq]; constructor; intros c' H; inversion H; subst; auto.
Qed.

Lemma thread_down e x t h x' : thread_step e x t = Some (h, x') -> tlt (x_th x' t) (x_th x t).
Proof.
  assert (G : forall y c, x_th (goto y t c) t = c) by (intros; cbn [goto x_th]; apply tset_same).
  unfold thread_step. destruct (x_th x t) as [|k|n b q|n g q|k v|k v|k v n b q|k v q|k v n g q|k v|o]; try discriminate.
  - intros E; injection E as <- <-. unfold fetch_section.
    repeat match goal with |- context [match ?y with _ => _ end] => destruct y end; rewrite G; apply tl_rank; reflexivity.
  - destruct q as [r|o c]; [|destruct (exec o (x_w x))]; intros E; injection E as <- <-; rewrite G;
      [apply tl_rank; reflexivity|apply tl_fc].
  - destruct q as [r|o c]; [|destruct (exec o (x_w x))]; intros E; injection E as <- <-; rewrite G;
      [apply tl_rank; reflexivity|apply tl_fk].
  - destruct (x_u x); [discriminate|]. intros E; injection E as <- <-. rewrite G. apply tl_rank; reflexivity.
  - intros E; injection E as <- <-. unfold insert_section.
    repeat match goal with |- context [match ?y with _ => _ end] => destruct y end; rewrite G; apply tl_rank; reflexivity.
  - destruct q as [[[|]|]|o c]; [| | |destruct (exec o (x_w x))]; intros E; injection E as <- <-; rewrite G;
      try (apply tl_rank; reflexivity); apply tl_ic.
  - destruct q as [[[|]|]|o c]; [| | |destruct (exec o (x_w x))]; intros E; injection E as <- <-; rewrite G;
      try (apply tl_rank; reflexivity); apply tl_id.
  - destruct q as [[[|]|]|o c]; [| | |destruct (exec o (x_w x))]; intros E; injection E as <- <-; rewrite G;
      try (apply tl_rank; reflexivity); apply tl_ik.
  - destruct (x_m x =? 0); [|discriminate]. intros E; injection E as <- <-. rewrite G. apply tl_rank; reflexivity.
  - intros E; injection E as <- <-. rewrite G. apply tl_rank; reflexivity.
Qed.
Lemma failed_down c er o : thread_io c = Some o -> tlt (thread_failed c er) c.
Proof.
  destruct c as [|k|n b q|n g q|k v|k v|k v n b q|k v q|k v n g q|k v|o']; try discriminate;
    destruct q as [r|o' q]; try discriminate; intros _; cbn [thread_failed].
  - apply tl_fc.
  - apply tl_fk.
  - apply tl_ic.
  - apply tl_id.
  - apply tl_ik.
Qed.

(** With the test of ecb_. *)
Definition plt : cth * bool -> cth * bool -> Prop := lex (clos_trans _ tlt) (fun b' b => blt b b').
Lemma rblt_wf : well_founded (fun b' b => blt b b').
Proof.
  assert (H : Acc (fun b' b => blt b b') true) by (constructor; intros b [X _]; discriminate).
  intros [|]; auto. constructor. intros b [_ ->]. exact H.
Qed.
Lemma plt_wf : well_founded plt.
Proof. apply lex_wf; [apply wf_clos_trans, tlt_wf|apply rblt_wf]. Qed.

(** ** The flush *)
Definition frank (f : fls) : N :=
  match f with FlIdle => 0 | FlKey _ => 1 | FlWait => 2 | FlLog _ => 3 | FlData _ => 4 end.
Inductive flt : fls -> fls -> Prop :=
| fl_rank f' f : frank f' < frank f -> flt f' f
| fl_data o q r : flt (FlData (q r)) (FlData (Do o q))
| fl_log o q r : flt (FlLog (q r)) (FlLog (Do o q))
| fl_key o q r : flt (FlKey (q r)) (FlKey (Do o q)).
Lemma flt_wf : well_founded flt.
Proof.
  intros f. induction f as [f IH] using (well_founded_ind (rank_wf frank)).
  destruct f as [|q|q| |q]; try (constructor; intros c' H; inversion H; subst; auto; fail).
  - assert (X : forall c', frank c' < 4 -> Acc flt c') by exact IH. clear IH.
    induction q as [r|o q IHq]; constructor; intros c' H; inversion H; subst; auto.
  - assert (X : forall c', frank c' < 3 -> Acc flt c') by exact IH. clear IH.
    induction q as [r|o q IHq]; constructor; intros c' H; inversion H; subst; auto.
  - assert (X : forall c', frank c' < 1 -> Acc flt c') by exact IH. clear IH.
    induction q as [r|o q IHq]; constructor; intros c' H; inversion H; subst; auto.
Qed.

Definition full (x : xst) : bool := negb (pool_is_empty (st_p1 (x_s x))).
Lemma flush_down e x x' : flush_step e x = Some x' -> (x_fl x = FlIdle -> pool_is_empty (st_p0 (x_s x)) = true) ->
  (x' = x /\ x_fl x = FlIdle /\ full x = false) \/ lex blt flt (full x', x_fl x') (full x, x_fl x) /\ x_fl x' <> x_fl x.
Proof.
  assert (I : forall f, ~ flt f f) by apply (wf_irrefl flt flt_wf).
  assert (D : forall y, full y = full x -> flt (x_fl y) (x_fl x) ->
    lex blt flt (full y, x_fl y) (full x, x_fl x) /\ x_fl y <> x_fl x).
  { intros y E H. split; [right; auto|]. intros E1. rewrite E1 in H. exact (I _ H). }
  unfold flush_step. cbv zeta. destruct (x_fl x) as [|q|q| |q] eqn:Hfl.
  - intros Hs Hp. specialize (Hp eq_refl). destruct (x_m x =? 0); [|discriminate].
    destruct (pool_is_empty (st_p1 (x_s x))) eqn:E1; injection Hs as <-.
    + left. unfold full. rewrite E1. auto.
    + right. split; [left|discriminate]. split; unfold full; cbn [fst set_fl set_s x_s swap_pools st_p1]; rewrite ?Hp, ?E1; reflexivity.
  - intros Hs _. right. destruct q as [[st|er]|o c]; [|discriminate|destruct (exec o (x_w x)) as [w r]].
    + destruct (x_m x =? 0); [|discriminate]. injection Hs as <-. apply D; [reflexivity|apply fl_rank; reflexivity].
    + injection Hs as <-. apply D; [reflexivity|apply fl_data].
  - intros Hs _. right. destruct q as [[st|er]|o c]; [|discriminate|destruct (exec o (x_w x)) as [w r]].
    + injection Hs as <-. apply D; [reflexivity|apply fl_rank; reflexivity].
    + injection Hs as <-. apply D; [reflexivity|apply fl_log].
  - intros Hs _. right. destruct (g_finished (x_g x)); [|discriminate].
    injection Hs as <-. apply D; [reflexivity|apply fl_rank; reflexivity].
  - intros Hs _. right. destruct q as [[st|er]|o c]; [|discriminate|destruct (exec o (x_w x)) as [w r]].
    + destruct (x_m x =? 0); [|discriminate]. injection Hs as <-. apply D; [reflexivity|apply fl_rank; reflexivity].
    + injection Hs as <-. apply D; [reflexivity|apply fl_key].
Qed.

(** ** Everything together *)
Definition is_some {A} (o : option A) : bool := match o with Some _ => true | None => false end.
Definition mu (A : list N) (x : xst) (ck : N -> bool) (ec : option err) : list (cth * bool) * ((bool * fls) * bool) :=
  (map (fun t => (x_th x t, ck t)) A, ((full x, x_fl x), is_some ec)).
Definition mlt : list (cth * bool) * ((bool * fls) * bool) -> list (cth * bool) * ((bool * fls) * bool) -> Prop :=
  lex (llt plt) (lex (lex blt flt) (fun b' b => blt b b')).
Lemma mlt_wf : well_founded mlt.
Proof.
  apply lex_wf; [apply llt_wf, plt_wf|]. apply lex_wf; [|apply rblt_wf]. apply lex_wf; [apply blt_wf|apply flt_wf].
Qed.

(** Only threads in [A] are doing something. *)
Definition within (A : list N) (x : xst) : Prop := forall t, ~ In t A -> x_th x t = CIdle.
Lemma within_in A x t : within A x -> x_th x t <> CIdle -> In t A.
Proof. intros H Hn. destruct (in_dec N.eq_dec t A) as [Ht|Ht]; auto. exfalso. auto. Qed.
Lemma step_active e x t h x' : thread_step e x t = Some (h, x') -> x_th x t <> CIdle.
Proof. unfold thread_step. intros H E. rewrite E in H. discriminate. Qed.

Lemma xstep_down e A x h y ck : NoDup A -> within A x -> (x_fl x = FlIdle -> pool_is_empty (st_p0 (x_s x)) = true) ->
  xstep e x h y -> calls h = [] -> within A y /\ (still x y \/ mlt (mu A y ck None) (mu A x ck None)).
Proof.
  intros Hn Hw Hp Hs Hc. inversion Hs as [t c s Ht Hv Hcs E1 E2|t h2 x3 Ht E1 E2|x3 Hf E1 E2]; subst.
  - discriminate.
  - destruct (thread_other _ _ _ _ _ Ht) as [Ho _]. pose proof (within_in _ _ _ Hw (step_active _ _ _ _ _ Ht)) as Hi.
    split; [intros u Hu; rewrite Ho by (intros ->; contradiction); auto|]. right. left. cbn [fst mu].
    apply (map_llt plt _ _ A t Hn Hi).
    + left. cbn [fst]. apply t_step. eapply thread_down; eauto.
    + intros u Hu. rewrite (Ho u Hu). reflexivity.
  - destruct (flush_step_hold _ _ _ Hf) as [Eth _]. split; [intros u Hu; rewrite Eth; auto|].
    destruct (flush_down _ _ _ Hf Hp) as [(-> & _)|[Hd _]]; [left; split; auto|]. right. right. cbn [fst snd mu]. rewrite Eth.
    split; [reflexivity|]. left. exact Hd.
Qed.

Lemma conc_step e a l h x h' y : concurrent e a l h x -> xstep e x h' y -> concurrent e a l (h ++ h') y.
Proof. intros (w & s & H1 & H2) Hs. exists w, s. split; auto. eapply xe_step; eauto. Qed.
Lemma calls_app h h' : calls (h ++ h') = calls h ++ calls h'.
Proof. induction h as [|[t c|t o] h IH]; cbn [app calls]; auto. rewrite IH. reflexivity. Qed.

Lemma idle_empty e p fp recs T A x m f i b : xinv e p fp recs T A x m f i b -> x_fl x = FlIdle ->
  pool_is_empty (st_p0 (x_s x)) = true.
Proof.
  intros Hi E. pose proof (xi_ph _ _ _ _ _ _ _ _ _ _ _ Hi) as H. rewrite E in H. destruct H as (-> & _). reflexivity.
Qed.

Lemma comes_to_rest e a l h (s : nat -> xst) :
  iter_ok e -> good_args a -> Forall (valid_op (ca_key_size a)) l ->
  concurrent e a l h (s O) ->
  ~ forall n, goes_on e (s n) (s (S n)).
Proof.
  intros Hit Ha Hv Hc Hinf.
  destruct (conc_inv e a l h _ Ha Hit Hv Hc) as (recs & T & A & m & f & _ & Hi).
  pose proof (xi_nd _ _ _ _ _ _ _ _ _ _ _ Hi) as Hn.
  assert (X : forall n, within A (s n) /\ exists h', concurrent e a l h' (s n)).
  { induction n as [|n (Hw & h' & Hc')].
    - split; [exact (xi_out _ _ _ _ _ _ _ _ _ _ _ Hi)|]. eauto.
    - destruct (Hinf n) as (h2 & Hst & Hcl & _).
      destruct (conc_inv e a l h' _ Ha Hit Hv Hc') as (r1 & T1 & A1 & m1 & f1 & _ & Hi1).
      split.
      + exact (proj1 (xstep_down e A _ _ _ (fun _ => true) Hn Hw (idle_empty _ _ _ _ _ _ _ _ _ _ _ Hi1) Hst Hcl)).
      + exists (h' ++ h2). eapply conc_step; eauto. }
  apply (wf_no_descent mlt mlt_wf (fun n => mu A (s n) (fun _ => true) None)).
  intros n. destruct (X n) as (Hw & h' & Hc'). destruct (Hinf n) as (h2 & Hst & Hcl & Hns).
  destruct (conc_inv e a l h' _ Ha Hit Hv Hc') as (r1 & T1 & A1 & m1 & f1 & _ & Hi1).
  destruct (xstep_down e A _ _ _ (fun _ => true) Hn Hw (idle_empty _ _ _ _ _ _ _ _ _ _ _ Hi1) Hst Hcl) as [_ [Y|Y]]; auto.
  contradiction.
Qed.

Lemma thread_not_still e x t h y : thread_step e x t = Some (h, y) -> x_th y t <> x_th x t.
Proof. intros H E. pose proof (thread_down _ _ _ _ _ H) as X. rewrite E in X. exact (wf_irrefl _ tlt_wf _ X). Qed.
Lemma step_calls e x t h y : thread_step e x t = Some (h, y) -> calls h = [].
Proof. intros H. destruct (thread_other _ _ _ _ _ H) as [_ [[-> _]|(o & _ & ->)]]; reflexivity. Qed.

Lemma failed_near e a l h x : good_args a -> iter_ok e -> Forall (valid_op (ca_key_size a)) l ->
  concurrent e a l h x -> fl_failed (x_fl x) = true -> near_limit (x_w x) /\ ~ small_history (l ++ calls h).
Proof.
  intros Ha Hit Hv Hc E. destruct (conc_inv e a l h x Ha Hit Hv Hc) as (recs & T & A & m & f & _ & Hi).
  destruct (failed_fp _ _ _ _ _ _ _ _ _ _ _ Hi E) as (er & _ & X & Y). auto.
Qed.

(** Where nothing goes on, everything is done. *)
Lemma at_rest e a l h x :
  iter_ok e -> good_args a -> Forall (valid_op (ca_key_size a)) l ->
  concurrent e a l h x -> (forall y, ~ goes_on e x y) ->
  (forall t, x_th x t = CIdle) /\
  (x_fl x = FlIdle /\ pool_is_empty (st_p1 (x_s x)) = true \/ near_limit (x_w x) /\ ~ small_history (l ++ calls h)).
Proof.
  intros Hit Ha Hv Hc Hr. destruct (good_args_ok a Ha) as (Hp & _).
  destruct (conc_inv e a l h x Ha Hit Hv Hc) as (recs & T & A & m & f & _ & Hi).
  assert (Hno : forall u, ~ can_step e x u).
  { intros u (h' & y & Hu). apply (Hr y). exists h'. split; [eapply xs_thread; eauto|]. split; [eapply step_calls; eauto|].
    intros [X _]. eapply thread_not_still; eauto. }
  assert (Hth : forall t, x_th x t = CIdle).
  { intros t. destruct (step_or_wait e x t) as [E|E]; auto. exfalso.
    assert (Hn : x_th x t <> CIdle).
    { destruct E as [E|[(_ & k & v & E)|(_ & k & v & E)]]; [exfalso; exact (Hno _ E)|congruence..]. }
    destruct (threads_progress _ _ _ _ _ _ _ _ _ _ _ _ Hi Hn) as (u & Hu). exact (Hno u Hu). }
  split; [exact Hth|]. destruct (fl_failed (x_fl x)) eqn:Ef; [right; eapply failed_near; eauto|left].
  destruct (flush_progress _ _ _ Hp Hit _ _ _ _ _ _ _ _ Ef Hi) as [(y & Hf)|(u & Hu)]; [|exfalso; exact (Hno _ Hu)].
  destruct (flush_down _ _ _ Hf (idle_empty _ _ _ _ _ _ _ _ _ _ _ Hi)) as [(-> & E1 & E2)|[_ Hn]].
  - split; auto. unfold full in E2. apply negb_false_iff. exact E2.
  - exfalso. apply (Hr y). exists []. split; [apply xs_flush; auto|]. split; [reflexivity|]. intros [_ X]. contradiction.
Qed.

(** There is always a way to get there. *)
Lemma finishes e a l h x :
  iter_ok e -> good_args a -> Forall (valid_op (ca_key_size a)) l ->
  concurrent e a l h x ->
  exists h' y, xexec e x h' y /\ calls h' = [] /\
    (forall t, x_th y t = CIdle) /\
    (x_fl y = FlIdle /\ pool_is_empty (st_p1 (x_s y)) = true \/ near_limit (x_w y) /\ ~ small_history (l ++ calls h)).
Proof.
  intros Hit Ha Hv Hc. destruct (good_args_ok a Ha) as (Hp & _).
  destruct (conc_inv e a l h _ Ha Hit Hv Hc) as (recs & T & A & m & f & _ & Hi).
  pose proof (xi_nd _ _ _ _ _ _ _ _ _ _ _ Hi) as Hn. pose proof (xi_out _ _ _ _ _ _ _ _ _ _ _ Hi) as Hw.
  clear recs T m f Hi. remember (mu A x (fun _ => true) None) as n eqn:En. revert h x En Hc Hw.
  induction n as [n IH] using (well_founded_ind mlt_wf). intros h x En Hc Hw. subst n.
  destruct (conc_inv e a l h _ Ha Hit Hv Hc) as (recs & T & A1 & m & f & _ & Hi).
  assert (Go : forall h' y, xstep e x h' y -> calls h' = [] -> ~ still x y -> exists h' y, xexec e x h' y /\ calls h' = [] /\
    (forall t, x_th y t = CIdle) /\
    (x_fl y = FlIdle /\ pool_is_empty (st_p1 (x_s y)) = true \/ near_limit (x_w y) /\ ~ small_history (l ++ calls h))).
  { intros h' y Hst Hcl Hns.
    destruct (xstep_down e A _ _ _ (fun _ => true) Hn Hw (idle_empty _ _ _ _ _ _ _ _ _ _ _ Hi) Hst Hcl) as [Hw' [Y|Y]]; [contradiction|].
    destruct (IH _ Y (h ++ h') y eq_refl) as (h2 & z & H1 & H2 & H3).
    - eapply conc_step; eauto.
    - exact Hw'.
    - rewrite calls_app, Hcl, app_nil_r in H3. exists (h' ++ h2), z. split; [|rewrite calls_app, Hcl, H2; auto].
      eapply xexec_app; [|exact H1]. rewrite <- (app_nil_l h'). eapply xe_step; [apply xe_nil|exact Hst]. }
  assert (St : (exists u, can_step e x u) -> exists h' y, xexec e x h' y /\ calls h' = [] /\
    (forall t, x_th y t = CIdle) /\
    (x_fl y = FlIdle /\ pool_is_empty (st_p1 (x_s y)) = true \/ near_limit (x_w y) /\ ~ small_history (l ++ calls h))).
  { intros (u & h' & y & Hu). eapply Go; [eapply xs_thread; exact Hu|eapply step_calls; exact Hu|].
    intros [X _]. eapply thread_not_still; eauto. }
  assert (D : (forall t, x_th x t = CIdle) \/ exists t, x_th x t <> CIdle).
  { assert (E : Forall (fun t => x_th x t = CIdle) A \/ exists t, x_th x t <> CIdle).
    { clear. induction A as [|t A [IH|IH]]; auto.
      destruct (x_th x t) eqn:E; [left; constructor; auto|right; exists t; congruence..]. }
    destruct E as [E|E]; auto. left. intros t. destruct (in_dec N.eq_dec t A) as [Ht|Ht]; auto.
    rewrite Forall_forall in E. auto. }
  destruct D as [D|(t & D)]; [|apply St; eapply threads_progress; eauto].
  destruct (fl_failed (x_fl x)) eqn:Ef.
  { exists [], x. split; [apply xe_nil|]. split; [reflexivity|]. split; [exact D|]. right. eapply failed_near; eauto. }
  destruct (flush_progress _ _ _ Hp Hit _ _ _ _ _ _ _ _ Ef Hi) as [(y & Hf)|X]; [|auto].
  destruct (flush_down _ _ _ Hf (idle_empty _ _ _ _ _ _ _ _ _ _ _ Hi)) as [(-> & E1 & E2)|[_ Hd]].
  - exists [], x. split; [apply xe_nil|]. splits; auto. left. split; auto. unfold full in E2. apply negb_false_iff. exact E2.
  - eapply Go; [eapply xs_flush; exact Hf|reflexivity|]. intros [_ X]. contradiction.
Qed.

(** ** When operations may fail *)
Definition fmu (A : list N) (c : fmach) := mu A (fm_x c) (fm_in c) (fm_ec c).

Lemma fmstep_down e A c h c' : NoDup A -> within A (fm_x c) ->
  (x_fl (fm_x c) = FlIdle -> pool_is_empty (st_p0 (x_s (fm_x c))) = true) ->
  fmstep e c h c' -> fcalls h = [] -> stop_free h ->
  within A (fm_x c') /\ (fstill c c' \/ mlt (fmu A c') (fmu A c)).
Proof.
  intros Hn Hw Hp Hs Hc Hsf.
  assert (At : forall x t, at_entry (x_th x t) = true -> within A x -> In t A).
  { intros x t H HA. apply (within_in _ _ _ HA). intros E. rewrite E in H. discriminate. }
  inversion Hs as [x S ec ck t c0 s Ht Hv Hcs E1 E2|x S ck t Ht Hck E1 E2|x S er ck t Ht Hck E1 E2|x S ec ck t h2 x3 Hck Ht E1 E2|
    x S ec ck t op n h2 x3 Hio Ht E1 E2|x S ec ck x3 Hf E1 E2|x S ec ck op n w' Hio Hf E1 E2|x S ck er Hfe Hna E1 E2|
    x S er ck Hm Hp1 E1 E2|x S ec ck w1 w2 w3 s3 Hd Hint Ho E1 E2]; subst; unfold fmu, mu;
    cbn [fm_x fm_disk fm_ec fm_in] in *.
  - discriminate.
  - split; auto. right. left. cbn [fst]. apply (map_llt plt _ _ A t Hn (At _ _ Ht Hw)).
    + right. cbn [fst snd]. split; auto. unfold bset. rewrite N.eqb_refl. split; auto.
    + intros u Hu. unfold bset. destruct (N.eqb_spec u t); [congruence|auto].
  - assert (Hi : In t A) by eauto. split.
    + intros u Hu. cbn [goto x_th]. rewrite tset_other; auto. intros ->. contradiction.
    + right. left. cbn [fst]. apply (map_llt plt _ _ A t Hn Hi).
      * left. cbn [fst goto x_th]. rewrite tset_same. apply t_step, tl_rank.
        destruct (x_th x t); try discriminate; reflexivity.
      * intros u Hu. cbn [goto x_th]. rewrite tset_other by auto. reflexivity.
  - destruct (thread_other _ _ _ _ _ Ht) as [Ho _]. pose proof (within_in _ _ _ Hw (step_active _ _ _ _ _ Ht)) as Hi.
    split; [intros u Hu; rewrite Ho by (intros ->; contradiction); auto|]. right. left. cbn [fst].
    apply (map_llt plt _ _ A t Hn Hi).
    + left. cbn [fst]. apply t_step. eapply thread_down; eauto.
    + intros u Hu. rewrite (Ho u Hu). reflexivity.
  - destruct (thread_other _ _ _ _ _ Ht) as [Ho _].
    assert (Hi : In t A) by (apply (within_in _ _ _ Hw); intros E; rewrite E in Hio; discriminate).
    assert (Ho' : forall u, u <> t -> x_th x3 u = x_th x u).
    { intros u Hu. rewrite (Ho u Hu). cbn [goto x_th]. rewrite tset_other by auto. reflexivity. }
    split; [intros u Hu; rewrite Ho' by (intros ->; contradiction); auto|]. right. left. cbn [fst].
    apply (map_llt plt _ _ A t Hn Hi).
    + left. cbn [fst]. eapply t_trans; apply t_step; [eapply thread_down; exact Ht|].
      cbn [goto x_th]. rewrite tset_same. eapply failed_down. exact Hio.
    + intros u Hu. rewrite (Ho' u Hu). reflexivity.
  - destruct (flush_step_hold _ _ _ Hf) as [Eth _]. split; [intros u Hu; rewrite Eth; auto|].
    destruct (flush_down _ _ _ Hf Hp) as [(-> & _)|[Hd _]]; [left; repeat split; auto|]. right. right. cbn [fst snd]. rewrite Eth.
    split; [reflexivity|]. left. exact Hd.
  - split; auto. right. right. cbn [fst snd set_fl set_w x_th x_fl]. split; auto. left. right. cbn [fst snd].
    split; [reflexivity|]. destruct (x_fl x) as [|[r|o q]|[r|o q]| |[r|o q]]; try discriminate; cbn [flush_failed].
    + apply fl_data.
    + apply fl_log.
    + apply fl_key.
  - split; auto. right. right. cbn [fst snd]. split; auto. right. cbn [fst snd is_some]. split; [auto|split; auto].
  - split; auto. left. repeat split; auto.
  - exfalso. apply Hsf. left. auto.
Qed.

Lemma fail_step e a h c h' c' : failing_use e a h c -> fmstep e c h' c' -> failing_use e a (h ++ h') c'.
Proof. intros (M & H1 & H2) Hs. exists M. split; auto. eapply fe_step; eauto. Qed.

Lemma fcomes_to_rest e a h (s : nat -> fmach) :
  iter_ok e -> good_args a -> failing_use e a h (s O) ->
  ~ forall n, fgoes_on e (s n) (s (S n)).
Proof.
  intros Hit Ha Hc Hinf.
  destruct (fail_inv e a h _ Ha Hit Hc) as (recs & T & A & m & d & o & f & _ & [[Hi _] _ _ _]).
  pose proof (xi_nd _ _ _ _ _ _ _ _ _ _ _ Hi) as Hn.
  assert (Idle : forall h c, failing_use e a h c ->
    x_fl (fm_x c) = FlIdle -> pool_is_empty (st_p0 (x_s (fm_x c))) = true).
  { intros h1 c1 H1. destruct (fail_inv e a h1 _ Ha Hit H1) as (r1 & T1 & A1 & m1 & d1 & o1 & f1 & _ & [[Hi1 _] _ _ _]).
    exact (idle_empty _ _ _ _ _ _ _ _ _ _ _ Hi1). }
  assert (X : forall n, within A (fm_x (s n)) /\ exists h', failing_use e a h' (s n)).
  { induction n as [|n (Hw & h' & Hc')].
    - split; [exact (xi_out _ _ _ _ _ _ _ _ _ _ _ Hi)|]. eauto.
    - destruct (Hinf n) as (h2 & Hst & Hcl & Hsf & _). split.
      + exact (proj1 (fmstep_down e A _ _ _ Hn Hw (Idle _ _ Hc') Hst Hcl Hsf)).
      + exists (h' ++ h2). eapply fail_step; eauto. }
  apply (wf_no_descent mlt mlt_wf (fun n => fmu A (s n))).
  intros n. destruct (X n) as (Hw & h' & Hc'). destruct (Hinf n) as (h2 & Hst & Hcl & Hsf & Hns).
  destruct (fmstep_down e A _ _ _ Hn Hw (Idle _ _ Hc') Hst Hcl Hsf) as [_ [Y|Y]]; auto.
  contradiction.
Qed.

Lemma fat_rest e a h c :
  iter_ok e -> good_args a -> failing_use e a h c -> small_history (fcalls h) \/ ~ near_limit (x_w (fm_x c)) ->
  (forall c', ~ fgoes_on e c c') ->
  (forall t, x_th (fm_x c) t = CIdle) /\
  (fm_ec c = None /\ x_fl (fm_x c) = FlIdle /\ pool_is_empty (st_p1 (x_s (fm_x c))) = true \/
   exists n, fm_ec c = Some (EIO n)).
Proof.
  intros Hit Ha Hc Hs Hr. destruct (good_args_ok a Ha) as (Hp & _).
  destruct (fail_inv e a h _ Ha Hit Hc) as (recs & T & A & m & d & o & f & _ & Hfi).
  assert (Heio : forall er, flush_error (x_fl (fm_x c)) = Some er -> exists n, er = EIO n).
  { intros er E. destruct (finv_eio _ _ _ _ _ _ _ _ _ _ _ _ _ er Hfi E) as [X|(_ & X & Y)]; [exact X|exfalso; tauto]. }
  destruct Hfi as [[Hi _] _ Hec _]. cbn [cm_x] in Hi. destruct c as [x S ec ck]. cbn [fm_x fm_ec] in *.
  assert (Hno : forall u, ~ can_step e x u).
  { intros u (h' & y & Hu).
    destruct (at_entry (x_th x u) && negb (ck u)) eqn:E.
    - apply andb_prop in E as [E1 E2]. apply negb_true_iff in E2. destruct ec as [er|].
      + eapply Hr. exists []. split; [apply fs_refuse; eauto|]. split; [reflexivity|]. split; [intros []|].
        intros [[X _] _]. cbn [fm_x] in X. specialize (X u). revert X. cbn [goto x_th]. rewrite tset_same.
        destruct (x_th x u); discriminate.
      + eapply Hr. exists []. split; [apply fs_pass; eauto|]. split; [reflexivity|]. split; [intros []|].
        intros [_ [X _]]. cbn [fm_in] in X. specialize (X u). unfold bset in X. rewrite N.eqb_refl in X. congruence.
    - eapply Hr. eexists. split; [eapply fs_thread; [|exact Hu]|].
      + apply andb_false_iff in E as [E|E]; [auto|]. right. apply negb_false_iff. exact E.
      + split; [rewrite fcalls_hev; eapply step_calls; eauto|]. split.
        * destruct (thread_other _ _ _ _ _ Hu) as [_ [[-> _]|(r & _ & ->)]]; cbn [map]; [intros []|intros [X|[]]; discriminate].
        * intros [[X _] _]. cbn [fm_x] in X. eapply thread_not_still; eauto. }
  assert (Hth : forall t, x_th x t = CIdle).
  { intros t. destruct (step_or_wait e x t) as [E|E]; auto. exfalso.
    assert (Hn : x_th x t <> CIdle).
    { destruct E as [E|[(_ & k & v & E)|(_ & k & v & E)]]; [exfalso; exact (Hno _ E)|congruence..]. }
    destruct (threads_progress _ _ _ _ _ _ _ _ _ _ _ _ Hi Hn) as (u & Hu). exact (Hno u Hu). }
  split; [exact Hth|].
  destruct ec as [er|].
  { right. destruct (Heio _ (proj1 (Hec _ eq_refl))) as (n & ->). eauto. }
  left. split; auto.
  destruct (flush_error (x_fl x)) as [er|] eqn:Efe.
  { exfalso. eapply Hr. eexists. split; [apply fs_flush_error; [exact Efe|destruct (Heio _ eq_refl) as (n & ->); discriminate]|]. split; [reflexivity|].
    split; [intros [X|[]]; discriminate|]. intros [_ [_ X]]. discriminate. }
  assert (Hb : fl_failed (x_fl x) = false).
  { destruct (fl_failed (x_fl x)) eqn:E; auto. destruct (failed_flush_error _ E). congruence. }
  destruct (flush_progress _ _ _ Hp Hit _ _ _ _ _ _ _ _ Hb Hi) as [(y & Hf)|(u & Hu)]; [|exfalso; exact (Hno _ Hu)].
  destruct (flush_down _ _ _ Hf (idle_empty _ _ _ _ _ _ _ _ _ _ _ Hi)) as [(-> & E1 & E2)|[_ Hn]].
  - split; auto. unfold full in E2. apply negb_false_iff. exact E2.
  - exfalso. eapply Hr. eexists. split; [apply fs_flush; exact Hf|].
    assert (Hc0 : dcalls (flush_seen x y) = []).
    { unfold flush_seen. destruct (x_fl x), (x_fl y); reflexivity. }
    split; [rewrite fcalls_map; exact Hc0|]. split.
    + intros X. pose proof (flush_seen_idle x y) as Y. rewrite Forall_forall in Y. exact (Y _ X).
    + intros [[_ X] _]. cbn [fm_x] in X. contradiction.
Qed.

(** ** Calls and answers *)
Lemma only_ret e x t h y : thread_step e x t = Some (h, y) -> x_th y t = CIdle -> exists o, h = [HRet t o].
Proof.
  intros Hs Hy. destruct (thread_other _ _ _ _ _ Hs) as [_ [[_ Hr]|(o & _ & ->)]]; [|eauto]. exfalso. revert Hs Hy.
  unfold thread_step, fetch_section, insert_section. cbv zeta.
  destruct (x_th x t) as [|k|n b q|n g q|k v|k v|k v n b q|k v q|k v n g q|k v|o]; try discriminate;
    try (destruct q as [[[|]|]|o c]); try (destruct q as [r|o c]);
    repeat match goal with
      | |- context [if x_u x then _ else _] => destruct (x_u x); try discriminate
      | |- context [if x_m x =? 0 then _ else _] => destruct (x_m x =? 0); try discriminate
      end;
    try (destruct (exec o (x_w x)) as [w r] eqn:E);
    try (exfalso; eapply Hr; reflexivity); intros X; injection X as <- <-;
    repeat match goal with |- context [match ?b with _ => _ end] => destruct b end;
    cbn [goto x_th]; rewrite ?tset_same; discriminate.
Qed.

(** Thread [t] waits for an answer. *)
Definition pend1 (t : N) (b : bool) (v : hev) : bool :=
  match v with HCall u _ => if u =? t then true else b | HRet u _ => if u =? t then false else b end.
Definition pend (t : N) (h : list hev) : bool := fold_left (pend1 t) h false.
Lemma pend_ret t h : fold_left (pend1 t) h true = false -> exists o, In (HRet t o) h.
Proof.
  induction h as [|[u c|u o] h IH]; cbn [fold_left pend1]; [discriminate| |].
  - intros H. destruct (u =? t); destruct (IH H) as (o & Ho); exists o; right; auto.
  - destruct (N.eqb_spec u t) as [->|]; [exists o; left; auto|]. intros H. destruct (IH H) as (o' & Ho).
    exists o'. right. auto.
Qed.
Lemma pend_answered h : (forall t, pend t h = false) -> answered h.
Proof.
  intros H t c h1 h2 ->. specialize (H t). unfold pend in H. rewrite fold_left_app in H. cbn [fold_left pend1] in H.
  rewrite N.eqb_refl in H. eapply pend_ret. exact H.
Qed.

Lemma thread_pend e x t h y u b : thread_step e x t = Some (h, y) -> (b = true -> x_th x u <> CIdle) ->
  fold_left (pend1 u) h b = true -> x_th y u <> CIdle.
Proof.
  intros Ht Hb Hp. destruct (thread_other _ _ _ _ _ Ht) as [Ho X]. destruct (N.eq_dec u t) as [->|Hn].
  - intros E. destruct (only_ret _ _ _ _ _ Ht E) as (o & ->). cbn [fold_left pend1] in Hp. rewrite N.eqb_refl in Hp. discriminate.
  - rewrite (Ho u Hn). apply Hb. destruct X as [[-> _]|(o & _ & ->)]; cbn [fold_left pend1] in Hp; auto.
    destruct (N.eqb_spec t u); [congruence|auto].
Qed.

Lemma call_state_idle c s : call_state c = Some s -> s <> CIdle.
Proof. destruct c; cbn; congruence. Qed.

Lemma xexec_pend e x h y : xexec e x h y -> forall t, pend t h = true -> x_th y t <> CIdle.
Proof.
  induction 1 as [|x h y h' z Hx IH Hs]; intros u; [discriminate|]. unfold pend. rewrite fold_left_app. fold (pend u h).
  specialize (IH u).
  inversion Hs as [t c s Ht Hv Hcs E1 E2|t h2 x3 Ht E1 E2|x3 Hf E1 E2]; subst.
  - cbn [fold_left pend1 goto x_th]. destruct (N.eqb_spec t u) as [->|Hn].
    + rewrite tset_same. intros _. eapply call_state_idle. eauto.
    + rewrite tset_other by auto. auto.
  - intros Hp. eapply thread_pend; eauto.
  - cbn [fold_left]. destruct (flush_step_hold _ _ _ Hf) as [-> _]. auto.
Qed.

Lemma idle_answered e a l h x : concurrent e a l h x -> (forall t, x_th x t = CIdle) -> answered h.
Proof.
  intros (w & s & _ & Hx) Hi. apply pend_answered. intros t. destruct (pend t h) eqn:E; auto.
  exfalso. exact (xexec_pend _ _ _ _ Hx t E (Hi t)).
Qed.

Definition fpend1 (t : N) (b : bool) (v : fev) : bool :=
  match v with FDev (DEv v) => pend1 t b v | FDev DStop => false | _ => b end.
Definition fpend (t : N) (h : list fev) : bool := fold_left (fpend1 t) h false.
Lemma fpend_ret t h : fold_left (fpend1 t) h true = false -> In (FDev DStop) h \/ exists o, In (FDev (DEv (HRet t o))) h.
Proof.
  induction h as [|v h IH]; cbn [fold_left]; [discriminate|]. destruct (fpend1 t true v) eqn:E.
  - intros H. destruct (IH H) as [X|(o & X)]; [left|right; exists o]; right; auto.
  - intros _. destruct v as [[[u c|u o]| | |]| |]; cbn in E; try discriminate.
    + destruct (u =? t); discriminate.
    + destruct (N.eqb_spec u t) as [->|]; [right; exists o; left; auto|discriminate].
    + left. left. auto.
Qed.
Lemma fpend_answered h : (forall t, fpend t h = false) -> fanswered h.
Proof.
  intros H t c h1 h2 ->. specialize (H t). unfold fpend in H. rewrite fold_left_app in H. cbn [fold_left fpend1 pend1] in H.
  rewrite N.eqb_refl in H. eapply fpend_ret. exact H.
Qed.
Lemma fpend_hev t h b : fold_left (fpend1 t) (map (fun v => FDev (DEv v)) h) b = fold_left (pend1 t) h b.
Proof. revert b. induction h as [|v h IH]; intros b; cbn [map fold_left fpend1]; auto. Qed.
Lemma fpend_idle t h b : Forall idle_ev h -> fold_left (fpend1 t) h b = b.
Proof.
  intros H. revert b. induction H as [|v h Hv _ IH]; intros b; auto. cbn [fold_left]. rewrite IH.
  destruct v as [[[u c|u o]| | |]| |]; cbn in *; auto; contradiction.
Qed.

Lemma fmexec_pend e c h c' : fmexec e c h c' -> forall t, fpend t h = true -> x_th (fm_x c') t <> CIdle.
Proof.
  induction 1 as [|c h c1 h' c2 Hx IH Hs]; intros u; [discriminate|]. unfold fpend. rewrite fold_left_app. fold (fpend u h).
  specialize (IH u).
  inversion Hs as [x S ec ck t c0 s Ht Hv Hcs E1 E2|x S ck t Ht Hck E1 E2|x S er ck t Ht Hck E1 E2|x S ec ck t h2 x3 Hck Ht E1 E2|
    x S ec ck t op n h2 x3 Hio Ht E1 E2|x S ec ck x3 Hf E1 E2|x S ec ck op n w' Hio Hf E1 E2|x S ck er Hfe Hna E1 E2|
    x S er ck Hm Hp1 E1 E2|x S ec ck w1 w2 w3 s3 Hd Hint Ho E1 E2]; subst; cbn [fm_x] in *; cbn [fold_left fpend1]; auto.
  - cbn [pend1 goto x_th]. destruct (N.eqb_spec t u) as [->|Hn].
    + rewrite tset_same. intros _. eapply call_state_idle. eauto.
    + rewrite tset_other by auto. auto.
  - intros Hp. cbn [goto x_th]. destruct (N.eq_dec u t) as [->|Hn]; [rewrite tset_same; discriminate|].
    rewrite tset_other by auto. auto.
  - rewrite fpend_hev. intros Hp. eapply thread_pend; eauto.
  - rewrite fpend_hev. intros Hp. eapply thread_pend; [exact Ht| |exact Hp]. intros Hb. specialize (IH Hb).
    cbn [goto x_th]. destruct (N.eq_dec u t) as [->|Hn]; [rewrite tset_same|rewrite tset_other by auto; auto].
    destruct (x_th x t) as [| |? ? [|]|? ? [|]| | |? ? ? ? [|]|? ? [|]|? ? ? ? [|]| |]; discriminate.
  - rewrite fpend_idle by apply flush_seen_idle. destruct (flush_step_hold _ _ _ Hf) as [-> _]. auto.
  - discriminate.
Qed.

Lemma fidle_answered e a h c : failing_use e a h c -> (forall t, x_th (fm_x c) t = CIdle) -> fanswered h.
Proof.
  intros (M & _ & Hx) Hi. apply fpend_answered. intros t. destruct (fpend t h) eqn:E; auto.
  exfalso. exact (fmexec_pend _ _ _ _ Hx t E (Hi t)).
Qed.

(** ** Where everything is done, nothing goes on *)
Lemma done_rest e x : all_done x -> forall y, ~ goes_on e x y.
Proof.
  intros (Hi & Hf & Hp) y (h & Hs & Hc & Hn).
  inversion Hs as [t c s Ht Hv Hcs E1 E2|t h2 x3 Ht E1 E2|x3 Hfs E1 E2]; subst.
  - discriminate.
  - exact (step_active _ _ _ _ _ Ht (Hi t)).
  - apply Hn. revert Hfs. unfold flush_step. rewrite Hf, Hp. destruct (x_m x =? 0); [|discriminate].
    intros E. injection E as <-. split; auto.
Qed.

Lemma failed_stuck e x er : flush_error (x_fl x) = Some er -> flush_step e x = None /\ flush_io (x_fl x) = None.
Proof.
  unfold flush_step. destruct (x_fl x) as [|[[a|er0]|o c]|[[a|er0]|o c]| |[[a|er0]|o c]]; cbn; try discriminate; auto.
Qed.

Lemma fdone_rest e a h c :
  iter_ok e -> good_args a -> failing_use e a h c ->
  (forall t, x_th (fm_x c) t = CIdle) -> all_done (fm_x c) /\ fm_ec c = None \/ fm_ec c <> None ->
  forall c', ~ fgoes_on e c c'.
Proof.
  intros Hit Ha Hu Hi Hd c' (h' & Hs & Hc & Hsf & Hn).
  destruct (fail_inv e a h _ Ha Hit Hu) as (recs & T & A & m & d & o & f & _ & [_ _ Hec _]).
  assert (Hfl : forall x', flush_step e (fm_x c) = Some x' -> x' = fm_x c).
  { intros x' Hf. destruct Hd as [[(_ & E1 & E2) _]|Hd].
    - revert Hf. unfold flush_step. rewrite E1, E2. destruct (_ =? 0); congruence.
    - destruct (fm_ec c) as [er|]; [|contradiction]. destruct (failed_stuck e _ _ (proj1 (Hec _ eq_refl))). congruence. }
  assert (Hio : flush_io (x_fl (fm_x c)) = None).
  { destruct Hd as [[(_ & -> & _) _]|Hd]; [reflexivity|].
    destruct (fm_ec c) as [er|]; [|contradiction]. exact (proj2 (failed_stuck e _ _ (proj1 (Hec _ eq_refl)))). }
  inversion Hs as [x S ec ck t c0 s Ht Hv Hcs E1 E2|x S ck t Ht Hck E1 E2|x S er ck t Ht Hck E1 E2|x S ec ck t h2 x3 Hck Ht E1 E2|
    x S ec ck t op n h2 x3 Hio' Ht E1 E2|x S ec ck x3 Hf E1 E2|x S ec ck op n w' Hio' Hf E1 E2|x S ck er Hfe Hna E1 E2|
    x S er ck Hm Hp1 E1 E2|x S ec ck w1 w2 w3 s3 Hd' Hint Ho E1 E2]; subst; cbn [fm_x fm_ec] in *; try discriminate.
  - rewrite Hi in Ht. discriminate.
  - rewrite Hi in Ht. discriminate.
  - exact (step_active _ _ _ _ _ Ht (Hi t)).
  - rewrite Hi in Hio'. discriminate.
  - apply Hn. rewrite (Hfl _ Hf). repeat split; auto.
  - congruence.
  - destruct Hd as [[(_ & X & _) _]|Hd]; [rewrite X in Hfe; discriminate|contradiction].
  - apply Hn. repeat split; auto.
  - apply Hsf. left. auto.
Qed.
