(** A recovery in which no read of a record of the log fails stops at the first failed operation. *)
From Verif Require Import Model.Bytes Model.Err Model.Field Model.Format Model.IO Model.BulkIO Model.Bucket
  Model.Recover Model.Store Model.Crash SpecRetry Proofs.FailFacts.
Opaque loop.

(** If an operation not in [safe] fails, the program ends at once with a result in [F]; all results are in [Q]. *)
Inductive pst (safe : io -> bool) {A} (F Q : A -> Prop) : prog A -> Prop :=
| ps_ret a : Q a -> pst safe F Q (Ret a)
| ps_do o k : (safe o = false -> forall n, exists a, F a /\ k (RErr (EIO n)) = Ret a) ->
    (forall r, pst safe F Q (k r)) -> pst safe F Q (Do o k).

Lemma pst_crash safe ord {A} (F Q : A -> Prop) p w S q w' S' v :
  pst safe F Q p -> fsteps_but safe ord p w S q w' S' -> on_disk S' v -> crash ord p w S v.
Proof.
  intros Hp Hs Hv. revert Hp. induction Hs as [p w S|o k w S p' w' S' Hs IH|o k w S n w1 p' w' S' Hsafe Hf Hs IH]; intros Hp.
  - exists p, w, S. split; [constructor|auto].
  - inversion Hp as [|? ? Hk Hr]; subst. destruct (IH Hv (Hr _)) as (q & w1 & S1 & Hq & Hd).
    exists q, w1, S1. split; [constructor; auto|auto].
  - inversion Hp as [|? ? Hk Hr]; subst. destruct (Hk Hsafe n) as (a & _ & Ha). rewrite Ha in Hs. inversion Hs; subst.
    destruct o as [f|f|f|f|f off len|f ap off d|f|f m];
      try (eexists _, w, S; split; [apply steps_here|exact Hv]);
      (eexists _, _, _; split; [apply steps_next; apply steps_here|exact Hv]).
Qed.

Lemma but_live safe ord {A} (p : prog A) w S p' w' S' :
  fsteps_but safe ord p w S p' w' S' -> fsteps ord p w S p' w' S'.
Proof. induction 1; [constructor|apply fsteps_ok; assumption|eapply fsteps_fail; eassumption]. Qed.

Section S.
Variable safe : io -> bool.

Lemma ps_bind {A B} (F Q : A -> Prop) (F2 Q2 : B -> Prop) (p : prog A) (f : A -> prog B) :
  pst safe F Q p -> (forall a, F a -> exists b, F2 b /\ f a = Ret b) -> (forall a, Q a -> pst safe F2 Q2 (f a)) ->
  pst safe F2 Q2 (bind p f).
Proof.
  intros Hp Hf Hq. induction Hp as [a Ha|o k Hk Hr IH]; cbn [bind]; [auto|].
  apply ps_do; auto. intros So n. destruct (Hk So n) as (a & Ha & E). rewrite E. cbn [bind]. auto.
Qed.

Definition feio {A} (a : res A) : Prop := exists n, a = Er (EIO n).
Definition ferr {A} (a : res A) : Prop := exists er, a = Er er.
Definition fstep {St A} (a : St + res A) : Prop := exists er, a = inr (Er er).
Definition any {A} (a : A) : Prop := True.

Lemma ps_mono {A} (F F' Q Q' : A -> Prop) p : (forall a, F a -> F' a) -> (forall a, Q a -> Q' a) -> pst safe F Q p -> pst safe F' Q' p.
Proof.
  intros HF HQ. induction 1 as [a Ha|o k Hk Hr IH]; [apply ps_ret; auto|apply ps_do; auto].
  intros So n. destruct (Hk So n) as (a & Ha & E). eauto.
Qed.

Lemma ps_ebind {A B} (Q : res A -> Prop) (Q2 : res B -> Prop) (p : prog (res A)) (f : A -> prog (res B)) :
  pst safe ferr Q p -> (forall er, Q2 (Er er)) -> (forall a, Q (Ok a) -> pst safe ferr Q2 (f a)) -> pst safe ferr Q2 (ebind p f).
Proof.
  intros Hp He Hf. unfold ebind. eapply ps_bind; [exact Hp| |].
  - intros a (er & ->). exists (Er er). split; [exists er; auto|auto].
  - intros [a|er] Ha; [auto|apply ps_ret; auto].
Qed.

Lemma eio_err {A} (p : prog (res A)) Q : pst safe feio Q p -> pst safe ferr Q p.
Proof. apply ps_mono; auto. intros a (n & ->). exists (EIO n). auto. Qed.

Lemma pe_unit o : pst safe feio any (do_unit o).
Proof. apply ps_do; [intros _ n; eexists; split; [exists n; reflexivity|reflexivity]|intros []; apply ps_ret; exact I]. Qed.
Lemma pe_num o : pst safe feio any (do_num o).
Proof. apply ps_do; [intros _ n; eexists; split; [exists n; reflexivity|reflexivity]|intros []; apply ps_ret; exact I]. Qed.
Lemma pe_data o : pst safe feio any (do_data o).
Proof. apply ps_do; [intros _ n; eexists; split; [exists n; reflexivity|reflexivity]|intros []; apply ps_ret; exact I]. Qed.
Lemma pe_ebind {A B} (p : prog (res A)) (f : A -> prog (res B)) :
  pst safe feio any p -> (forall a, pst safe feio any (f a)) -> pst safe feio any (ebind p f).
Proof.
  intros Hp Hf. unfold ebind. eapply ps_bind; [exact Hp| |].
  - intros a (n & ->). exists (Er (EIO n)). split; [exists n; auto|auto].
  - intros [a|er] _; [auto|apply ps_ret; exact I].
Qed.

Lemma ps_iterp {St A} (I : St -> Prop) (step : St -> prog (St + res A)) :
  let Q := fun x => match x with inl s => I s | inr _ => True end in
  (forall s, I s -> pst safe fstep Q (step s)) ->
  forall n s, I s -> pst safe fstep Q (iterp n step s).
Proof.
  intros Q Hs. 
  assert (K : forall x : St + res A, fstep x -> forall g : St -> prog (St + res A), exists y : St + res A, fstep y /\ match x with inl s' => g s' | inr x => Ret (inr x) end = Ret y).
  { intros x (er & ->) g. eexists. split; [exists er; reflexivity|reflexivity]. }
  induction n as [q IH|q IH|]; intros s H0; cbn [iterp].
  - eapply ps_bind; [apply Hs, H0|intros a Ha; apply (K a Ha)|]. intros [s1|x] H1; [|apply ps_ret; exact H1].
    eapply ps_bind; [apply IH, H1|intros a Ha; apply (K a Ha)|]. intros [s2|x] H2; [apply IH, H2|apply ps_ret; exact H2].
  - eapply ps_bind; [apply IH, H0|intros a Ha; apply (K a Ha)|]. intros [s2|x] H2; [apply IH, H2|apply ps_ret; exact H2].
  - apply Hs, H0.
Qed.

Transparent loop.
Lemma ps_loop {St A} (I : St -> Prop) (step : St -> prog (St + res A)) s :
  (forall s, I s -> pst safe fstep (fun x => match x with inl s => I s | inr _ => True end) (step s)) ->
  I s -> pst safe ferr any (loop step s).
Proof.
  intros Hs H0. unfold loop. pose proof (ps_iterp I step Hs fuel s H0) as W. cbv zeta in W.
  generalize dependent (iterp fuel step s). intros p W.
  eapply ps_bind; [exact W| |].
  - intros a (er & ->). exists (Er er). split; [exists er; auto|auto].
  - intros [s1|x] _; apply ps_ret; exact Logic.I.
Qed.
Opaque loop.
End S.

Definition inlog (r : breader) : Prop := br_file r = FLog /\ 0 < br_off r.

Lemma ps_prepare F r n : inlog r ->
  pst reads_records F (fun a => match a with Ok (_, r') => inlog r' | Er _ => True end) (br_prepare r n).
Proof.
  intros [Hf Ho]. unfold br_prepare. cbv zeta. destruct (_ <? n).
  - destruct (_ <? _).
    + unfold ebind, pfail. cbn [bind]. apply ps_ret. exact I.
    + unfold ebind, p_read, do_data. rewrite Hf. cbn [bind]. apply ps_do.
      * cbn [reads_records]. intros X. exfalso. replace (br_off r =? 0) with false in X by lia. discriminate X.
      * intros [er|m d]; unfold pret; cbn [bind]; apply ps_ret; [exact I|].
        unfold inlog. cbn [br_file br_off]. split; [reflexivity|lia].
  - unfold ebind, pret. cbn [bind]. apply ps_ret. split; assumption.
Qed.

Lemma ps_bulk F b r : inlog r ->
  pst reads_records F (fun x => match snd x with Ok r' => inlog r' | Er _ => True end) (bk_read_bulk b r).
Proof.
  intros Hr. unfold bk_read_bulk. eapply ps_bind; [apply (ps_prepare (fun _ => False)), Hr|intros a []|].
  intros [[is r1]|er] H1; [|apply ps_ret; exact I]. cbv zeta.
  eapply ps_bind; [apply (ps_prepare (fun _ => False)), H1|intros a []|].
  intros [[is2 r2]|er] H2; [|apply ps_ret; exact I].
  destruct (_ <? _); apply ps_ret; cbn [snd]; auto.
Qed.

Lemma ps_step kh ds b r : inlog r ->
  pst reads_records fstep (fun x => match x with inl s => inlog (snd s) | inr _ => True end) (recover_step kh ds (b, r)).
Proof.
  intros Hr. unfold recover_step. destruct (br_eof r); [apply ps_ret; exact I|].
  eapply ps_bind; [apply (ps_prepare (fun _ => False)), Hr|intros a []|].
  intros [[is r1]|er] H1; [|destruct er; apply ps_ret; exact I]. cbv zeta.
  eapply ps_bind; [apply (ps_bulk (fun _ => False)), H1|intros a []|].
  intros [b' a] H2. cbn [snd] in H2.
  assert (T : pst reads_records fstep (fun x : (bucket * breader) + res unit => match x with inl s => inlog (snd s) | inr _ => True end)
    (if negb (bk_spill b' =? 0) && (ds <? bk_spill b' + bucket_size (kh_capacity kh))
      then Ret (inr (Er invalid_log_spill))
      else if kh_buckets kh <? rd64 is then Ret (inr (Er invalid_log_index))
      else
        bind (bk_write b' FKey false ((rd64 is + 1) * kh_block_size kh)) (fun w =>
        match a, w with
        | Er e, _ => Ret (inr (Er e))
        | Ok r, Ok _ => Ret (inl (b', r))
        | Ok _, Er e => Ret (inr (Er e))
        end))).
  { destruct (_ && _); [apply ps_ret; exact I|]. destruct (_ <? _); [apply ps_ret; exact I|].
    eapply ps_bind; [unfold bk_write; apply pe_unit| |].
    - intros x (n & ->). destruct a as [r2|er]; eexists; (split; [|reflexivity]); eexists; reflexivity.
    - intros [u|er] _; destruct a as [r2|er2]; apply ps_ret; cbn [snd]; auto. }
  destruct a as [r2|er]; [exact T|]. destruct er; try exact T; apply ps_ret; exact I.
Qed.

Lemma ps_recover e : pst reads_records ferr any (recover e).
Proof.
  assert (Er_any : forall A (er : err), any (Er er : res A)) by (intros; exact I).
  assert (R0 : forall A (a : res A), pst reads_records feio any (Ret a)) by (intros; apply ps_ret; exact I).
  assert (R1 : forall A (a : res A), pst reads_records ferr any (Ret a)) by (intros; apply ps_ret; exact I).
  assert (CL : pst reads_records ferr any recover_clear_log).
  { apply eio_err. unfold recover_clear_log. repeat (apply pe_ebind; [apply pe_unit|intros]). apply pe_unit. }
  unfold recover.
  eapply ps_ebind; [apply eio_err, pe_unit|apply Er_any|]. intros _ _.
  eapply ps_ebind; [apply eio_err, pe_num|apply Er_any|]. intros ds _.
  eapply ps_ebind; [apply eio_err; unfold read_dat_header; apply pe_ebind; [apply pe_data|intros; apply R0]|apply Er_any|]. intros dh _.
  eapply ps_ebind; [apply R1|apply Er_any|]. intros _ _.
  eapply ps_ebind; [apply eio_err, pe_unit|apply Er_any|]. intros _ _.
  eapply ps_ebind; [apply eio_err, pe_num|apply Er_any|]. intros ks _.
  destruct (ks <=? key_hdr_size).
  { eapply ps_ebind; [|apply Er_any|].
    - unfold erase_file. eapply ps_bind; [apply pe_unit| |].
      + intros a (n & ->). eexists. split; [exists (EIO n); reflexivity|reflexivity].
      + intros [x|[]] _; apply R1.
    - intros _ _. eapply ps_ebind; [apply eio_err, pe_unit|apply Er_any|]. intros; apply R1. }
  eapply ps_bind; [apply pe_unit| |].
  { intros a (n & ->). eexists. split; [exists (EIO n); reflexivity|reflexivity]. }
  intros [u3|er] _; [|destruct er; apply R1].
  eapply ps_ebind; [apply eio_err, pe_num|apply Er_any|]. intros ls _.
  eapply ps_bind; [unfold read_log_header; apply pe_ebind; [apply pe_data|intros; apply R0]| |].
  { intros a (n & ->). eexists. split; [exists (EIO n); reflexivity|reflexivity]. }
  intros [lh|er] _; [|destruct er; try apply R1; apply CL].
  eapply ps_ebind; [apply R1|apply Er_any|]. intros _ _.
  eapply (ps_ebind _ any); [|apply Er_any|].
  - destruct (lh_key_file_size lh =? 0); [apply R1|]. unfold recover_replay.
    eapply ps_ebind; [apply eio_err; unfold read_key_header|apply Er_any|].
    { apply pe_ebind; [apply pe_data|]. intros. apply pe_ebind; [apply pe_num|]. intros. apply R0. }
    intros kh _.
    do 3 (eapply ps_ebind; [apply R1|apply Er_any|]; intros _ _).
    cbv zeta. apply (ps_loop _ (fun s => inlog (snd s))).
    + intros [b r] H. apply ps_step. exact H.
    + unfold br_make, inlog. cbn [snd br_file br_off]. split; [reflexivity|unfold log_hdr_size; lia].
  - intros _ _. eapply (ps_ebind _ any); [|apply Er_any|intros; apply CL]. apply eio_err. unfold recover_trunc_files.
    repeat (apply pe_ebind; [apply pe_unit|intros]). destruct (negb _); [|apply pe_unit].
    repeat (apply pe_ebind; [apply pe_unit|intros]). apply pe_unit.
Qed.

Lemma ps_open e : pst reads_records ferr any (store_open e).
Proof.
  assert (Er_any : forall A (er : err), any (Er er : res A)) by (intros; exact I).
  assert (R0 : forall A (a : res A), pst reads_records feio any (Ret a)) by (intros; apply ps_ret; exact I).
  assert (R1 : forall A (a : res A), pst reads_records ferr any (Ret a)) by (intros; apply ps_ret; exact I).
  unfold store_open.
  eapply (ps_ebind _ any); [apply ps_recover|apply Er_any|]. intros _ _.
  do 3 (eapply ps_ebind; [apply eio_err, pe_unit|apply Er_any|]; intros _ _).
  eapply ps_ebind; [apply eio_err; unfold read_dat_header; apply pe_ebind; [apply pe_data|intros; apply R0]|apply Er_any|]. intros dh _.
  eapply ps_ebind; [apply R1|apply Er_any|]. intros _ _.
  eapply ps_ebind; [apply eio_err; unfold read_key_header|apply Er_any|].
  { apply pe_ebind; [apply pe_data|]. intros. apply pe_ebind; [apply pe_num|]. intros. apply R0. }
  intros kh _. do 2 (eapply ps_ebind; [apply R1|apply Er_any|]; intros _ _).
  cbv zeta. destruct (_ <? 1); apply R1.
Qed.

Lemma but_crash {A} (p : prog (res A)) w q w1 S1 v : pst reads_records ferr any p ->
  fsteps_but reads_records log_in_order p w (durable w) q w1 S1 -> on_disk S1 v ->
  crash log_in_order p w (durable w) v.
Proof. intros Hp Hs Hv. eapply pst_crash; [exact Hp|exact Hs|exact Hv]. Qed.

(** The remaining program and the files after [n] operations. *)
Fixpoint walk {A} (n : nat) (p : prog A) (w : world) : prog A * world :=
  match n, p with
  | S n', Do o k => walk n' (k (snd (exec o w))) (fst (exec o w))
  | _, _ => (p, w)
  end.

Lemma walk_steps safe ord {A} n : forall (p : prog A) w q u S, walk n p w = (q, u) ->
  exists S', fsteps_but safe ord p w S q u S'.
Proof.
  induction n as [|n IH]; intros p w q u S E; [cbn in E; assert (q = p /\ u = w) as [-> ->] by (split; congruence); eexists; constructor|].
  destruct p as [a|o k]; [cbn in E; assert (q = Ret a /\ u = w) as [-> ->] by (split; congruence); eexists; constructor|].
  cbn [walk] in E. destruct (IH _ _ _ _ (sexec ord o w S) E) as (S' & H). exists S'. apply fb_ok. exact H.
Qed.

Lemma walk_fail safe ord {A} (p : prog A) w S o k u S1 n w1 q w2 S2 :
  fsteps_but safe ord p w S (Do o k) u S1 -> safe o = false -> failed ord o u w1 ->
  fsteps_but safe ord (k (RErr (EIO n))) w1 (sfail ord o u S1) q w2 S2 ->
  fsteps_but safe ord p w S q w2 S2.
Proof.
  intros H Hs Hf Hn. remember (Do o k) as r eqn:R. revert R Hf Hn.
  induction H; intros R Hf Hn.
  - subst p. eapply fb_fail; eassumption.
  - apply fb_ok. auto.
  - eapply fb_fail; [eassumption|eassumption|auto].
Qed.
