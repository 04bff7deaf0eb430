(** Facts about programs and their execution. *)
From Verif Require Import Model.Bytes Model.Err Model.IO Proofs.BytesFacts.

Lemma run_bind {A B} (p : prog A) (f : A -> prog B) w :
  run (bind p f) w = let '(w', a) := run p w in run (f a) w'.
Proof.
  revert w; induction p as [a|o k IH]; intro w; simpl; auto.
  destruct (exec o w) as [w' r]. apply IH.
Qed.

Lemma run_bind_eq {A B} (p : prog A) (f : A -> prog B) w w' a :
  run p w = (w', a) -> run (bind p f) w = run (f a) w'.
Proof. intros H. rewrite run_bind, H. auto. Qed.

Lemma run_ebind_ok {A B} (p : prog (res A)) (f : A -> prog (res B)) w w' a :
  run p w = (w', Ok a) -> run (ebind p f) w = run (f a) w'.
Proof. intros H. unfold ebind. rewrite run_bind, H. auto. Qed.

Lemma run_ebind_er {A B} (p : prog (res A)) (f : A -> prog (res B)) w w' e :
  run p w = (w', Er e) -> run (ebind p f) w = (w', Er e).
Proof. intros H. unfold ebind. rewrite run_bind, H. auto. Qed.

Lemma run_ebind {A B} (p : prog (res A)) (f : A -> prog (res B)) w :
  run (ebind p f) w =
  let '(w', r) := run p w in
  match r with Ok a => run (f a) w' | Er e => (w', Er e) end.
Proof. unfold ebind. rewrite run_bind. destruct (run p w) as [w' [a|e]]; auto. Qed.

(** Basic operations. *)
Lemma run_read f off len w c :
  wget w f = Some c -> off + len <= blen c ->
  run (p_read f off len) w = (w, Ok (bsub off len c)).
Proof.
  intros Hc Hl. unfold p_read, do_data; simpl. rewrite Hc.
  replace (off + len <=? blen c) with true by lia. rewrite orb_true_r. auto.
Qed.
Lemma run_read_short f off len w c :
  wget w f = Some c -> len <> 0 -> blen c < off + len ->
  run (p_read f off len) w = (w, Er short_read).
Proof.
  intros Hc H0 Hl. unfold p_read, do_data; simpl. rewrite Hc.
  replace (off + len <=? blen c) with false by lia.
  replace (len =? 0) with false by lia. auto.
Qed.
Lemma run_size f w c : wget w f = Some c -> run (p_size f) w = (w, Ok (blen c)).
Proof. intros Hc. unfold p_size, do_num; simpl. rewrite Hc. auto. Qed.
Lemma run_open f w c : wget w f = Some c -> run (p_open f) w = (w, Ok tt).
Proof. intros Hc. unfold p_open, do_unit; simpl. rewrite Hc. auto. Qed.
Lemma run_open_none f w : wget w f = None -> run (p_open f) w = (w, Er ENoEnt).
Proof. intros Hc. unfold p_open, do_unit; simpl. rewrite Hc. auto. Qed.
Lemma run_sync f w c : wget w f = Some c -> run (p_sync f) w = (w, Ok tt).
Proof. intros Hc. unfold p_sync, do_unit; simpl. rewrite Hc. auto. Qed.
Lemma run_trunc f n w c :
  wget w f = Some c -> run (p_trunc f n) w = (wset w f (Some (btrunc n c)), Ok tt).
Proof. intros Hc. unfold p_trunc, do_unit; simpl. rewrite Hc. auto. Qed.
Lemma run_erase f w c :
  wget w f = Some c -> run (p_erase f) w = (wset w f None, Ok tt).
Proof. intros Hc. unfold p_erase, do_unit; simpl. rewrite Hc. auto. Qed.
Lemma run_create f w :
  wget w f = None -> run (p_create f) w = (wset w f (Some []), Ok tt).
Proof. intros Hc. unfold p_create, do_unit; simpl. rewrite Hc. auto. Qed.
Lemma run_write f off d w c :
  wget w f = Some c ->
  run (p_write f false off d) w = (wset w f (Some (bwrite off d c)), Ok tt).
Proof. intros Hc. unfold p_write, do_unit; simpl. rewrite Hc. auto. Qed.
Lemma run_append f off d w c :
  wget w f = Some c -> off = blen c ->
  run (p_write f true off d) w = (wset w f (Some (c ++ d)), Ok tt).
Proof.
  intros Hc ->. unfold p_write, do_unit; simpl. rewrite Hc, N.eqb_refl; simpl.
  rewrite bwrite_end by auto. auto.
Qed.

Lemma wget_wset_same w f c : wget (wset w f c) f = c.
Proof. destruct f; reflexivity. Qed.
Lemma wget_wset_other w f g c : f <> g -> wget (wset w f c) g = wget w g.
Proof. destruct f, g; intros; try congruence; reflexivity. Qed.
Lemma wset_wset w f c d : wset (wset w f c) f d = wset w f d.
Proof. destruct f; reflexivity. Qed.
Lemma wset_same w f : wset w f (wget w f) = w.
Proof. destruct w, f; reflexivity. Qed.

Global Arguments wset : simpl never.
Global Arguments wget : simpl never.

(** Loops. *)
Fixpoint itern {S R} (n : nat) (step : S -> prog (S + R)) (s : S) : prog (S + R) :=
  match n with
  | O => Ret (inl s)
  | Datatypes.S n' => bind (step s) (fun r =>
      match r with inl s' => itern n' step s' | inr x => Ret (inr x) end)
  end.

Lemma run_itern_add {S R} (step : S -> prog (S + R)) a b s w :
  run (itern (a + b) step s) w =
  run (bind (itern a step s) (fun r =>
    match r with inl s' => itern b step s' | inr x => Ret (inr x) end)) w.
Proof.
  revert s w; induction a as [|a IH]; intros s w; simpl.
  - auto.
  - rewrite !run_bind. destruct (run (step s) w) as [w' [s'|x]]; auto.
    rewrite IH. rewrite run_bind. auto.
Qed.

Lemma run_iterp {S R} (step : S -> prog (S + R)) p s w :
  run (iterp p step s) w = run (itern (Pos.to_nat p) step s) w.
Proof.
  revert s w; induction p as [q IH|q IH|]; intros s w.
  - rewrite Pos2Nat.inj_xI.
    change (Datatypes.S (2 * Pos.to_nat q)) with (1 + 2 * Pos.to_nat q)%nat.
    rewrite run_itern_add. simpl iterp. simpl itern.
    rewrite !run_bind. destruct (run (step s) w) as [w' [s'|x]]; simpl; auto.
    replace (Pos.to_nat q + (Pos.to_nat q + 0))%nat
      with (Pos.to_nat q + Pos.to_nat q)%nat by lia.
    rewrite run_itern_add, !run_bind, IH.
    destruct (run (itern (Pos.to_nat q) step s') w') as [w1 [s1|x]]; auto.
  - rewrite Pos2Nat.inj_xO.
    replace (2 * Pos.to_nat q)%nat with (Pos.to_nat q + Pos.to_nat q)%nat by lia.
    rewrite run_itern_add. simpl. rewrite !run_bind, IH.
    destruct (run (itern (Pos.to_nat q) step s) w) as [w1 [s1|x]]; auto.
  - simpl. rewrite run_bind. destruct (run (step s) w) as [w' [s'|x]]; auto.
Qed.

(** [loops step n s w w' r]: the loop leaves after exactly n iterations. *)
Inductive loops {S R} (step : S -> prog (S + R)) : nat -> S -> world -> world -> R -> Prop :=
| loops_done s w w' r : run (step s) w = (w', inr r) -> loops step 1 s w w' r
| loops_more n s s1 w w1 w' r :
    run (step s) w = (w1, inl s1) -> loops step n s1 w1 w' r ->
    loops step (Datatypes.S n) s w w' r.

Lemma loops_itern {S R} (step : S -> prog (S + R)) n s w w' r :
  loops step n s w w' r -> forall m, (n <= m)%nat -> run (itern m step s) w = (w', inr r).
Proof.
  induction 1 as [s w w' r H|n s s1 w w1 w' r H H1 IH]; intros m Hm.
  - destruct m as [|m]; [lia|]. simpl. rewrite run_bind, H. auto.
  - destruct m as [|m]; [lia|]. simpl. rewrite run_bind, H. apply IH; lia.
Qed.

Lemma loop_run {S R} (step : S -> prog (S + res R)) n s w w' r :
  loops step n s w w' r -> N.of_nat n <= 18446744073709551616 ->
  run (loop step s) w = (w', r).
Proof.
  intros H Hn. unfold loop. rewrite run_bind, run_iterp.
  rewrite (loops_itern _ _ _ _ _ _ H); auto.
  unfold fuel. lia.
Qed.
