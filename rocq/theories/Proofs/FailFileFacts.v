(** The simulated failures of the tests, and failing recovery. *)
From Verif Require Import Model.Bytes Proofs.BytesFacts Model.Err Model.Field Model.Format Model.IO Model.BulkIO Model.Bucket Model.Recover
  Model.Store Model.Crash Model.FailFile Spec SpecHeader SpecCrash SpecRetry Proofs.IOFacts Proofs.SafeFacts Proofs.CommitOps Proofs.RefuseFacts
  Proofs.FailFacts Proofs.RetryFacts Proofs.EventFacts Proofs.CrashTheorems Model.Events Model.History Model.Create.
Opaque loop.

(** ** The counter *)
Lemma cf_zero c : counter_fail 0 c = (c, false).
Proof. reflexivity. Qed.
Lemma cf_early t c : c + 1 < t -> counter_fail t c = (c + 1, false).
Proof. intros H. unfold counter_fail. replace (t =? 0) with false by lia. replace (t <=? c + 1) with false by lia. auto. Qed.
Lemma cf_late t c : 0 < t -> t <= c + 1 -> counter_fail t c = (c + 1, true).
Proof. intros H0 H. unfold counter_fail. replace (t =? 0) with false by lia. replace (t <=? c + 1) with true by lia. auto. Qed.

Lemma torn_half (ord : fname -> bool) f off d n x :
  if ord f then True
  else torn_write off (blen d) x (bwrite off (btake n d) x).
Proof.
  destruct (ord f).
  - exact I.
  - assert (L : blen (btake n d) <= blen d) by (rewrite blen_btake; lia).
    split; [rewrite blen_bwrite_max; lia|].
    intros i Hi Ho. rewrite nthN_bwrite.
    destruct ((off <=? i) && (i <? off + blen (btake n d))) eqn:E; auto. lia.
Qed.

Lemma fexec_cases ord t c o w w1 r c' : fexec t c o w = (w1, r, c') ->
  (w1, r) = exec o w \/ r = RErr test_failure /\ failed ord o w w1.
Proof.
  intros H. destruct o as [f|f|f|f|f off len|f ap off d|f|f n]; cbn [fexec] in H;
    try (left; congruence).
  - destruct (counter_fail t c) as [c1 []]; [right|left; congruence]. split; [congruence|simpl; congruence].
  - destruct (counter_fail t c) as [c1 []].
    { right. split; [congruence|]. cbn [failed]. assert (w1 = w) by congruence. subst w1.
      destruct (wget w f) as [x|] eqn:E; auto.
      destruct (ap && negb (off =? blen x)); auto. exists x. split.
      - rewrite <- E, wset_same. reflexivity.
      - destruct (ord f); auto. split; [lia|auto]. }
    destruct (counter_fail t c1) as [c2 []]; [|left; congruence].
    cbn [exec] in H. cbn [exec failed]. destruct (wget w f) as [x|] eqn:E; [|left; congruence].
    destruct (ap && negb (off =? blen x)); [left; congruence|].
    right. split; [congruence|]. exists (bwrite off (btake ((blen d + 1) / 2) d) x). split; [congruence|].
    pose proof (torn_half ord f off d ((blen d + 1) / 2) x) as T. destruct (ord f); [|exact T].
    right. exists ((blen d + 1) / 2). reflexivity.
  - destruct (counter_fail t c) as [c1 []]; [right|left; congruence]. split; [congruence|simpl; congruence].
  - destruct (counter_fail t c) as [c1 []]; [right|left; congruence]. split; [congruence|].
    cbn [failed]. assert (w1 = w) by congruence. subst w1.
    destruct (wget w f) as [x|] eqn:E; auto. exists x. split.
    + rewrite <- E, wset_same. reflexivity.
    + destruct (ord f); auto. split; [lia|auto].
Qed.

Lemma frun_possible ord {A} (p : prog A) : forall t c w w' a c' S, frun t c p w = (w', a, c') ->
  exists S', fsteps ord p w S (Ret a) w' S'.
Proof.
  induction p as [a|o k IH]; intros t c w w' a' c' S H; cbn [frun] in H.
  - exists S. assert (a = a' /\ w = w') as [-> ->] by (split; congruence). constructor.
  - destruct (fexec t c o w) as [[w1 r] c1] eqn:E.
    destruct (fexec_cases ord _ _ _ _ _ _ _ E) as [X|[-> X]].
    + destruct (IH r t c1 w1 w' a' c' (sexec ord o w S) H) as (S' & HS). exists S'. apply fsteps_ok. rewrite <- X. exact HS.
    + destruct (IH _ t c1 w1 w' a' c' (sfail ord o w S) H) as (S' & HS). exists S'.
      apply fsteps_fail with (n := 1000) (w1 := w1); auto.
Qed.

(** ** Before the target *)
Lemma fexec_zero c o w : fexec 0 c o w = (exec o w, c).
Proof. destruct o; reflexivity. Qed.
Lemma fexec_early t c o w : c + chances o < t -> fexec t c o w = (exec o w, c + chances o).
Proof.
  intros H. destruct o as [f|f|f|f|f off len|f ap off d|f|f n]; cbn [fexec chances] in *;
    try (rewrite N.add_0_r; reflexivity); rewrite !cf_early by lia; auto.
  replace (c + 1 + 1) with (c + 2) by lia. auto.
Qed.

Lemma frun_zero {A} (p : prog A) : forall c w, frun 0 c p w = (run p w, c).
Proof.
  induction p as [a|o k IH]; intros c w; cbn [frun run]; auto. rewrite fexec_zero. destruct (exec o w). apply IH.
Qed.

Lemma frun_reach {A} (p : prog A) w m q v : reach p w m q v ->
  forall t c, c + m < t -> frun t c p w = frun t (c + m) q v.
Proof.
  induction 1 as [p w|o k w m q v H IH]; intros t c Hm; [rewrite N.add_0_r; auto|].
  cbn [frun]. rewrite fexec_early by lia. destruct (exec o w) as [w1 r]. simpl in *. rewrite IH by lia. f_equal. lia.
Qed.

Lemma reach_run {A} (p : prog A) w m q v : reach p w m q v -> run p w = run q v.
Proof. induction 1; auto. cbn [run]. destruct (exec o w). auto. Qed.

Lemma reach_total {A} (p : prog A) : forall w, exists K, reach p w K (Ret (snd (run p w))) (fst (run p w)).
Proof.
  induction p as [a|o k IH]; intros w.
  - exists 0. constructor.
  - destruct (IH (snd (exec o w)) (fst (exec o w))) as (K & H). exists (chances o + K). constructor.
    cbn [run]. destruct (exec o w) as [w1 r]. exact H.
Qed.

Lemma reach_turn {A} (p : prog A) w K a v : reach p w K (Ret a) v -> forall n, 1 <= n <= K ->
  exists m o k u, reach p w m (Do o k) u /\ m < n <= m + chances o.
Proof.
  remember (Ret a) as q eqn:Eq. induction 1 as [p w|o k w m q v H IH]; intros n Hn; [lia|].
  destruct (n <=? chances o) eqn:E.
  - exists 0, o, k, w. split; [constructor|lia].
  - destruct (IH Eq (n - chances o)) as (m' & o' & k' & u & R & L); [lia|].
    exists (chances o + m'), o', k', u. split; [constructor; auto|lia].
Qed.

(** ** From the target on *)
Lemma fexec_fails t c o w : 0 < t -> c < t <= c + chances o ->
  exists w1 er, fexec t c o w = (w1, RErr er, t) /\ (er = test_failure \/ (w1, RErr er) = exec o w).
Proof.
  intros H0 H. destruct o as [f|f|f|f|f off len|f ap off d|f|f n]; cbn [fexec chances] in *; try lia;
    try (rewrite cf_late by lia; exists w, test_failure; replace (c + 1) with t by lia; auto; fail).
  assert (t = c + 1 \/ t = c + 2) as [-> | ->] by lia.
  - rewrite cf_late by lia. exists w, test_failure. auto.
  - rewrite cf_early by lia. rewrite cf_late by lia. replace (c + 1 + 1) with (c + 2) by lia.
    cbn [exec]. destruct (wget w f) as [x|]; [|exists w, EBadF; auto].
    destruct (ap && negb (off =? blen x)); [exists w, EAppend; auto|].
    exists (wset w f (Some (bwrite off (btake ((blen d + 1) / 2) d) x))), test_failure. auto.
Qed.

Lemma fexec_after t c o w : 0 < t <= c -> 0 < chances o ->
  exists c', t <= c' /\ fexec t c o w = (w, RErr test_failure, c').
Proof.
  intros H Hc. exists (c + 1). split; [lia|].
  destruct o as [f|f|f|f|f off len|f ap off d|f|f n]; cbn [fexec chances] in *; try lia; rewrite cf_late by lia; auto.
Qed.

Lemma fexec_passed t c o w : chances o = 0 -> fexec t c o w = (exec o w, c).
Proof. destruct o; cbn [chances fexec]; intros; try discriminate; auto. Qed.

(** ** Programs that stop at the first failure, when started with the files [w] *)
Inductive wstrict {A} (fl : N -> A) : prog A -> world -> Prop :=
| ws_ret a w : wstrict fl (Ret a) w
| ws_do o k w : (forall n, k (RErr (EIO n)) = Ret (fl n)) ->
    wstrict fl (k (snd (exec o w))) (fst (exec o w)) -> wstrict fl (Do o k) w.

Lemma wstrict_crash ord {A} (fl : N -> A) p w S q w' S' v :
  wstrict fl p w -> fsteps ord p w S q w' S' -> on_disk S' v -> crash ord p w S v.
Proof.
  intros Hp Hs Hv. revert Hp. induction Hs as [p w S|o k w S p' w' S' Hs IH|o k w S n w1 p' w' S' Hf Hs IH]; intros Hp.
  - exists p, w, S. split; [constructor|auto].
  - inversion Hp as [|? ? ? Hk Hr]; subst. destruct (IH Hv Hr) as (q & w1 & S1 & Hq & Hd).
    exists q, w1, S1. split; [constructor; auto|auto].
  - inversion Hp as [|? ? ? Hk Hr]; subst. rewrite Hk in Hs. inversion Hs; subst.
    destruct o as [f|f|f|f|f off len|f ap off d|f|f m];
      try (eexists _, w, S; split; [apply steps_here|exact Hv]);
      (eexists _, _, _; split; [apply steps_next; apply steps_here|exact Hv]).
Qed.

Lemma ws_bind {A B} (fl : N -> A) (fl2 : N -> B) (p : prog A) (f : A -> prog B) w :
  wstrict fl p w -> (forall n, f (fl n) = Ret (fl2 n)) ->
  (forall w1 a, run p w = (w1, a) -> wstrict fl2 (f a) w1) ->
  wstrict fl2 (bind p f) w.
Proof.
  intros Hp Hf Hr. induction Hp as [a w|o k w Hk Hn IH]; simpl.
  - apply Hr. auto.
  - apply ws_do; [intros n; rewrite Hk; apply Hf|]. apply IH. intros w1 a E. apply Hr.
    cbn [run]. destruct (exec o w). exact E.
Qed.

Definition fe {A} (n : N) : res A := Er (EIO n).
Definition fi {St A} (n : N) : St + res A := inr (Er (EIO n)).

Lemma ws_ebind {A B} (p : prog (res A)) (f : A -> prog (res B)) w :
  wstrict fe p w -> (forall w1 a, run p w = (w1, Ok a) -> wstrict fe (f a) w1) ->
  wstrict fe (ebind p f) w.
Proof.
  intros Hp Hf. unfold ebind. eapply ws_bind; [exact Hp|reflexivity|].
  intros w1 [a|er] E; [apply Hf; auto|apply ws_ret].
Qed.

Lemma strict_ws {A} (p : prog (res A)) : strict p -> forall w, wstrict fe p w.
Proof. induction 1; intros w; [apply ws_ret|apply ws_do; [intros n; apply H|auto]]. Qed.

Lemma ws_iterp {St A} (I : St -> world -> Prop) (step : St -> prog (St + res A)) :
  (forall s w, I s w -> wstrict fi (step s) w) ->
  (forall s w w' s', I s w -> run (step s) w = (w', inl s') -> I s' w') ->
  forall n s w, I s w -> wstrict fi (iterp n step s) w /\
    forall w' s', run (iterp n step s) w = (w', inl s') -> I s' w'.
Proof.
  intros Hs Hi. induction n as [q IH|q IH|]; intros s w H0; cbn [iterp].
  - assert (T : forall s0 w0, I s0 w0 -> let p2 := bind (iterp q step s0) (fun r =>
              match r with inl s' => iterp q step s' | inr x => Ret (inr x) end) in
              wstrict fi p2 w0 /\ forall w' s', run p2 w0 = (w', inl s') -> I s' w').
    { intros s0 w0 H1 p2. destruct (IH _ _ H1) as [W R]. split.
      - eapply ws_bind; [exact W|reflexivity|]. intros w1 [s1|x] E; [|apply ws_ret]. apply IH. eauto.
      - intros w' s' E. unfold p2 in E. rewrite run_bind in E. destruct (run (iterp q step s0) w0) as [w1 [s1|x]] eqn:E1.
        + destruct (IH s1 w1) as [_ R1]; eauto.
        + simpl in E. discriminate E. }
    split.
    + eapply ws_bind; [apply Hs; auto|reflexivity|]. intros w1 [s1|x] E; [|apply ws_ret]. apply T. eauto.
    + intros w' s' E. rewrite run_bind in E. destruct (run (step s) w) as [w1 [s1|x]] eqn:E1.
      * eapply T; [|exact E]. eauto.
      * simpl in E. discriminate E.
  - destruct (IH _ _ H0) as [W R]. split.
    + eapply ws_bind; [exact W|reflexivity|]. intros w1 [s1|x] E; [|apply ws_ret]. apply IH. eauto.
    + intros w' s' E. rewrite run_bind in E. destruct (run (iterp q step s) w) as [w1 [s1|x]] eqn:E1.
      * destruct (IH s1 w1) as [_ R1]; eauto.
      * simpl in E. discriminate E.
  - split; eauto.
Qed.

Transparent loop.
Lemma ws_loop {St A} (I : St -> world -> Prop) (step : St -> prog (St + res A)) s w :
  (forall s w, I s w -> wstrict fi (step s) w) ->
  (forall s w w' s', I s w -> run (step s) w = (w', inl s') -> I s' w') ->
  I s w -> wstrict fe (loop step s) w.
Proof.
  intros Hs Hi H0. unfold loop. pose proof (ws_iterp I step Hs Hi fuel s w H0) as [W _].
  generalize dependent (iterp fuel step s). intros p W.
  eapply ws_bind; [exact W|reflexivity|]. intros w1 [s1|x] _; apply ws_ret.
Qed.
Opaque loop.

(** ** Recovery *)
Lemma ws_unit o w : wstrict fe (do_unit o) w.
Proof. apply strict_ws, strict_unit. Qed.
Lemma ws_num o w : wstrict fe (do_num o) w.
Proof. apply strict_ws, strict_num. Qed.
Lemma ws_data o w : wstrict fe (do_data o) w.
Proof. apply strict_ws, strict_data. Qed.

(** A reader that has read everything does not read again. *)
Definition drained (r : breader) : Prop := br_last r <= br_off r.

Lemma prepare_drained r n : drained r ->
  br_prepare r n = Ret (Er short_read) \/
  exists is r', br_prepare r n = Ret (Ok (is, r')) /\ drained r'.
Proof.
  intros D. unfold br_prepare, drained in *. destruct (blen (br_avail r) <? n) eqn:E.
  - replace (br_last r <? br_off r + n - blen (br_avail r)) with true by lia. left. reflexivity.
  - right. eexists _, _. split; [reflexivity|]. exact D.
Qed.

Lemma bulk_drained b r : drained r -> exists b' a, bk_read_bulk b r = Ret (b', a) /\
  match a with Er er => er = short_read \/ er = EUB | Ok r' => drained r' end.
Proof.
  intros D. unfold bk_read_bulk. destruct (prepare_drained r 8 D) as [->|(is & r1 & -> & D1)]; cbn [bind].
  - exists b, (Er short_read). auto.
  - cbv zeta. destruct (prepare_drained r1 (rd16 (bsub 0 2 is) * 18) D1) as [->|(is2 & r2 & -> & D2)]; cbn [bind].
    + eexists _, (Er short_read). split; [reflexivity|auto].
    + destruct (_ <? _); [eexists _, (Er EUB)|eexists _, (Ok r2)]; (split; [reflexivity|auto]).
Qed.

(** The reader before the first read, which gets everything. *)
Definition small (r : breader) : Prop := br_avail r = [] /\ br_last r - br_off r <= br_cap r.

Lemma prepare_small r n w w' a : small r \/ drained r -> run (br_prepare r n) w = (w', a) ->
  wstrict fe (br_prepare r n) w /\ match a with Ok (_, r') => drained r' \/ n = 0 | Er _ => True end.
Proof.
  intros [[Ha Hc]|D] R.
  - unfold br_prepare in *. rewrite Ha in *. change (blen []) with 0 in *.
    destruct (0 <? n) eqn:E.
    + destruct (br_last r <? br_off r + n - 0); [split; [apply ws_ret|]; assert (a = Er short_read) by (change ((w, Er short_read) = (w', a)) in R; congruence); subst a; exact I|].
      split.
      * apply ws_ebind; [|intros; apply ws_ret]. apply ws_ebind; [apply ws_data|intros; apply ws_ret].
      * destruct a as [[is r']|er]; [|exact I]. left.
        unfold ebind in R. rewrite !run_bind in R. 
        destruct (run (p_read (br_file r) (br_off r) _) w) as [w1 [d|er]] eqn:E1; cbn [run bind pret br_file br_last br_off br_avail br_cap] in R; [|discriminate R].
        assert (X : r' = BReader (br_file r) (br_last r)
           (br_off r + N.min ((if br_cap r <? n then n else br_cap r) - 0) (br_last r - br_off r))
           (bdrop n ([] ++ d)) (if br_cap r <? n then n else br_cap r)) by congruence.
        rewrite X. unfold drained. cbn [br_last br_off].
        destruct (br_cap r <? n) eqn:E2; lia.
    + split; [apply ws_ret|]. destruct a as [[is r']|er]; auto. right. lia.
  - destruct (prepare_drained r n D) as [X|(is & r' & X & D')]; rewrite X in *.
    + split; [apply ws_ret|]. cbn in R. assert (a = Er short_read) by congruence. subst. exact I.
    + split; [apply ws_ret|]. cbn in R. assert (a = Ok (is, r')) by congruence. subst. auto.
Qed.

Lemma ws_bk_write b f ap off w : wstrict fe (bk_write b f ap off) w.
Proof. unfold bk_write. apply ws_unit. Qed.

Lemma ws_recover_step kh ds b r w : small r \/ drained r -> wstrict fi (recover_step kh ds (b, r)) w.
Proof.
  intros Hr. unfold recover_step. destruct (br_eof r); [apply ws_ret|].
  destruct (run (br_prepare r 8) w) as [w1 a] eqn:R. pose proof (prepare_small _ _ _ _ _ Hr R) as [W D].
  eapply ws_bind; [exact W|reflexivity|]. intros w1' a' R'. assert (w1' = w1 /\ a' = a) as [-> ->] by (split; congruence).
  destruct a as [[is r1]|er]; [|destruct er; apply ws_ret].
  destruct D as [D|D]; [|lia]. cbv zeta.
  destruct (bulk_drained b r1 D) as (b' & x & -> & Hx). cbn [bind].
  destruct x as [r2|er]; [|destruct Hx as [-> | ->]; apply ws_ret].
  destruct (_ && _); [apply ws_ret|]. destruct (_ <? _); [apply ws_ret|].
  eapply ws_bind; [apply ws_bk_write|reflexivity|]. intros w2 [u|er] _; apply ws_ret.
Qed.

Lemma step_drained kh ds b r w w' b' r' : small r \/ drained r ->
  run (recover_step kh ds (b, r)) w = (w', inl (b', r')) -> drained r'.
Proof.
  intros Hr. unfold recover_step. destruct (br_eof r); [cbn; discriminate|].
  rewrite run_bind. destruct (run (br_prepare r 8) w) as [w1 a] eqn:R. pose proof (prepare_small _ _ _ _ _ Hr R) as [_ D].
  destruct a as [[is r1]|er]; [|destruct er; cbn; discriminate].
  destruct D as [D|D]; [|lia]. cbv zeta.
  destruct (bulk_drained b r1 D) as (b2 & x & -> & Hx). cbn [bind].
  destruct x as [r2|er]; [|destruct Hx as [-> | ->]; cbn; discriminate].
  destruct (_ && _); [cbn; discriminate|]. destruct (_ <? _); [cbn; discriminate|].
  rewrite run_bind. destruct (run (bk_write _ _ _ _) w1) as [w2 [u|er]]; cbn; [|discriminate].
  intros E. assert (r' = r2) by congruence. subst. exact Hx.
Qed.

Lemma run_p_read f off n w w1 d : run (p_read f off n) w = (w1, Ok d) ->
  w1 = w /\ exists c, wget w f = Some c /\ d = bsub off n c /\ (n = 0 \/ off + n <= blen c).
Proof.
  unfold p_read, do_data. cbn [run exec]. destruct (wget w f) as [c|] eqn:E; [|cbn; discriminate].
  destruct ((n =? 0) || (off + n <=? blen c)) eqn:L; [|cbn; discriminate].
  cbn. intros X. split; [congruence|]. exists c. splits; auto; [congruence|]. lia.
Qed.

Lemma run_p_size f w w1 n : run (p_size f) w = (w1, Ok n) -> w1 = w /\ exists c, wget w f = Some c /\ n = blen c.
Proof.
  unfold p_size, do_num. cbn [run exec]. destruct (wget w f) as [c|] eqn:E; [|cbn; discriminate].
  cbn. intros X. split; [congruence|]. exists c. split; auto. congruence.
Qed.

Lemma ws_recover e w : log_in_one_read w -> wstrict fe (recover e) w.
Proof.
  intros Hl. unfold recover.
  apply ws_ebind; [apply ws_unit|]. intros w1 u R1.
  assert (w1 = w).
  { revert R1. unfold p_open, do_unit. cbn [run exec]. destruct (wget w FDat); cbn; congruence. }
  subst w1. clear R1.
  apply ws_ebind; [apply ws_num|]. intros w1 ds R1. apply run_p_size in R1 as [-> _].
  apply ws_ebind. { apply ws_ebind; [apply ws_data|intros; apply ws_ret]. }
  intros w1 dh R1. unfold read_dat_header, ebind in R1. rewrite run_bind in R1.
  destruct (run (p_read FDat 0 dat_hdr_size) w) as [w2 [d|er]] eqn:R2; [|cbn in R1; discriminate R1].
  apply run_p_read in R2 as [-> _]. assert (w1 = w) by (cbn in R1; congruence). subst w1. clear R1.
  apply ws_ebind; [apply ws_ret|]. intros w1 u1 R1. assert (w1 = w) by (cbn in R1; congruence). subst w1. clear R1.
  apply ws_ebind; [apply ws_unit|]. intros w1 u2 R1.
  assert (w1 = w).
  { revert R1. unfold p_open, do_unit. cbn [run exec]. destruct (wget w FKey); cbn; congruence. }
  subst w1. clear R1.
  apply ws_ebind; [apply ws_num|]. intros w1 ks R1. apply run_p_size in R1 as [-> _].
  destruct (ks <=? key_hdr_size).
  { apply ws_ebind.
    - unfold erase_file. eapply ws_bind; [apply ws_unit|reflexivity|]. intros w1 [x|[]] _; apply ws_ret.
    - intros. apply ws_ebind; [apply ws_unit|]. intros. apply ws_ret. }
  eapply ws_bind; [apply ws_unit|reflexivity|]. intros w1 [u3|er] R1; [|destruct er; apply ws_ret].
  assert (w1 = w).
  { revert R1. unfold p_open, do_unit. cbn [run exec]. destruct (wget w FLog); cbn; congruence. }
  subst w1. clear R1.
  apply ws_ebind; [apply ws_num|]. intros w1 ls R1. apply run_p_size in R1 as [-> (g & Hg & ->)].
  assert (CL : forall v, wstrict fe recover_clear_log v).
  { intros v. unfold recover_clear_log. repeat (apply ws_ebind; [apply ws_unit|intros]). apply ws_unit. }
  eapply ws_bind.
  { apply ws_ebind; [apply ws_data|intros; apply ws_ret]. }
  { reflexivity. }
  intros w1 [lh|er] R1; [|destruct er; try apply ws_ret; apply CL].
  unfold read_log_header, ebind in R1. rewrite run_bind in R1.
  destruct (run (p_read FLog 0 log_hdr_size) w) as [w2 [d2|er]] eqn:R2; [|cbn in R1; discriminate R1].
  apply run_p_read in R2 as [-> _]. assert (w1 = w) by (cbn in R1; congruence). subst w1. clear R1.
  apply ws_ebind; [apply ws_ret|]. intros w1 u4 R1. assert (w1 = w) by (cbn in R1; congruence). subst w1. clear R1.
  apply ws_ebind.
  - destruct (lh_key_file_size lh =? 0); [apply ws_ret|]. unfold recover_replay.
    apply ws_ebind. { apply ws_ebind; [apply ws_data|]. intros. apply ws_ebind; [apply ws_num|]. intros. apply ws_ret. }
    intros w1 kh R1. unfold read_key_header, ebind in R1. rewrite run_bind in R1.
    destruct (run (p_read FKey 0 key_hdr_size) w) as [w2 [kb|er]] eqn:R2; [|cbn in R1; discriminate R1].
    apply run_p_read in R2 as [-> (k & Hk & -> & Hkl)]. rewrite run_bind in R1.
    destruct (run (p_size FKey) w) as [w2 [sz|er]] eqn:R3; [|cbn in R1; discriminate R1].
    apply run_p_size in R3 as [-> _]. 
    assert (w1 = w /\ kh = dec_key_header (bsub 0 key_hdr_size k) sz) as [-> ->] by (cbn [run pret] in R1; split; congruence).
    clear R1. apply ws_ebind; [apply ws_ret|]. intros w1 u5 R1. assert (w1 = w) by (cbn in R1; congruence). subst w1. clear R1.
    apply ws_ebind; [apply ws_ret|]. intros w1 u6 R1. assert (w1 = w) by (cbn in R1; congruence). subst w1. clear R1.
    apply ws_ebind; [apply ws_ret|]. intros w1 u7 R1. assert (w1 = w) by (cbn in R1; congruence). subst w1. clear R1.
    cbv zeta. destruct (Hl k g Hk Hg) as [Hok Hsz].
    assert (B : kh_block_size (dec_key_header (bsub 0 key_hdr_size k) sz) = num_at 44 2 k).
    { unfold dec_key_header. cbn [kh_block_size]. apply (f16 k key_hdr_size Hok); unfold key_hdr_size in *; lia. }
    rewrite B. clear Hl CL. 
    apply (ws_loop (fun s _ => small (snd s) \/ drained (snd s))).
    + intros [b r] v H. apply ws_recover_step. exact H.
    + intros [b r] v v' [b' r'] H R. right. eapply step_drained; [exact H|exact R].
    + left. unfold br_make, small. cbn [snd br_avail br_last br_off br_cap]. split; auto. unfold log_hdr_size. lia.
  - intros. apply ws_ebind; [|intros; apply CL]. unfold recover_trunc_files.
    repeat (apply ws_ebind; [apply ws_unit|intros]). destruct (negb _); [|apply ws_unit].
    repeat (apply ws_ebind; [apply ws_unit|intros]). apply ws_unit.
Qed.

Lemma durable_live w : on_disk (durable w) w.
Proof. intros f. reflexivity. Qed.

Lemma ws_open e w : log_in_one_read w -> wstrict fe (store_open e) w.
Proof.
  intros Hl. unfold store_open. apply ws_ebind; [apply ws_recover, Hl|]. intros w1 u _. clear Hl.
  do 3 (apply ws_ebind; [apply ws_unit|intros]).
  apply ws_ebind. { apply ws_ebind; [apply ws_data|intros; apply ws_ret]. }
  intros. apply ws_ebind; [apply ws_ret|]. intros.
  apply ws_ebind. { apply ws_ebind; [apply ws_data|]. intros. apply ws_ebind; [apply ws_num|]. intros. apply ws_ret. }
  intros. do 2 (apply ws_ebind; [apply ws_ret|]; intros). cbv zeta. destruct (_ <? 1); apply ws_ret.
Qed.

(** An attempt that failed has left the files as one that was stopped. *)
Lemma tried_crash {A} (p : prog (res A)) w w1 S1 v :
  (log_in_one_read w -> wstrict fe p w) -> pst reads_records ferr any p ->
  tried p w w1 S1 -> v = w1 \/ on_disk S1 v -> crash log_in_order p w (durable w) v.
Proof.
  intros Hw Hp (q & [[Hl Hs]|Hs]) Hv.
  - eapply wstrict_crash; [apply Hw; exact Hl|exact Hs|].
    destruct Hv as [-> |Hv]; auto. eapply fsteps_live; [exact Hs|apply durable_live].
  - eapply but_crash; [exact Hp|exact Hs|]. destruct Hv as [-> |Hv]; auto.
    eapply fsteps_live; [eapply but_live; exact Hs|apply durable_live].
Qed.

Lemma failed_recover_crash e w w1 S1 v : tried (recover e) w w1 S1 -> v = w1 \/ on_disk S1 v ->
  crash log_in_order (recover e) w (durable w) v.
Proof. apply tried_crash; [apply ws_recover|apply ps_recover]. Qed.

Lemma failed_open_crash e w w1 S1 v : tried (store_open e) w w1 S1 -> v = w1 \/ on_disk S1 v ->
  crash log_in_order (store_open e) w (durable w) v.
Proof. apply tried_crash; [apply ws_open|apply ps_open]. Qed.

Lemma retried_interrupted e w w' : retried e w w' -> interrupted log_in_order e w w'.
Proof.
  induction 1 as [w|w w1 S1 v w' Ht Hv Hr IH]; [apply int_none|]. destruct Ht as [Ht|Ht].
  - eapply int_recover; [|exact IH]. eapply failed_recover_crash; eauto.
  - eapply int_open; [|exact IH]. eapply failed_open_crash; eauto.
Qed.

(** ** The theorems *)
Lemma fexec_turn t c o w : c < t <= c + chances o ->
  exists w1 er, fexec t c o w = (w1, RErr er, t) /\ failed_at o (t - c) w w1 /\
    (er = test_failure \/ exec o w = (w, RErr er)).
Proof.
  intros H. destruct o as [f|f|f|f|f off len|f ap off d|f|f n]; cbn [fexec chances failed_at] in *; try lia;
    try (rewrite cf_late by lia; exists w, test_failure; replace (c + 1) with t by lia; auto; fail).
  assert (t = c + 1 \/ t = c + 2) as [-> | ->] by lia.
  - rewrite cf_late by lia. exists w, test_failure. replace (c + 1 - c =? 1) with true by lia. auto.
  - rewrite cf_early by lia. rewrite cf_late by lia. replace (c + 1 + 1) with (c + 2) by lia.
    replace (c + 2 - c =? 1) with false by lia.
    cbn [exec]. destruct (wget w f) as [x|]; [|exists w, EBadF; auto].
    destruct (ap && negb (off =? blen x)); [exists w, EAppend; auto|].
    exists (wset w f (Some (bwrite off (btake ((blen d + 1) / 2) d) x))), test_failure. auto.
Qed.

Lemma frun_turns {A} (p : prog A) w : exists K,
  reach p w K (Ret (snd (run p w))) (fst (run p w)) /\
  (forall t, t = 0 \/ K < t -> exists c, frun t 0 p w = (run p w, c)) /\
  (forall t, 1 <= t <= K -> exists m o k u v er,
     reach p w m (Do o k) u /\ m < t <= m + chances o /\ failed_at o (t - m) u v /\
     (er = test_failure \/ exec o u = (u, RErr er)) /\
     frun t 0 p w = frun t t (k (RErr er)) v).
Proof.
  destruct (reach_total p w) as (K & HK). exists K. splits; auto.
  - intros t [-> |Ht]; [exists 0; apply frun_zero|]. exists K. rewrite (frun_reach _ _ _ _ _ HK) by lia.
    cbn [frun]. destruct (run p w). reflexivity.
  - intros t Ht. destruct (reach_turn _ _ _ _ _ HK t Ht) as (m & o & k & u & R & L).
    destruct (fexec_turn t m o u L) as (v & er & F & D & E).
    exists m, o, k, u, v, er. splits; auto; try lia.
    rewrite (frun_reach _ _ _ _ _ R) by lia. cbn [frun]. rewrite N.add_0_l, F. reflexivity.
Qed.

Lemma frun_dead {A} (p : prog A) : forall t c w w' a c', 0 < t <= c -> frun t c p w = (w', a, c') ->
  forall f, wget w' f = wget w f \/ wget w' f = None \/ wget w' f = Some [].
Proof.
  induction p as [a|o k IH]; intros t c w w' a' c' Ht H f; cbn [frun] in H.
  - left. congruence.
  - destruct (fexec t c o w) as [[w1 r] c1] eqn:E.
    assert (t <= c1 /\ (wget w1 f = wget w f \/ wget w1 f = None \/ wget w1 f = Some [])) as [Hc Hw].
    { destruct (N.eq_dec (chances o) 0) as [Z|Z].
      - rewrite (fexec_passed t c o w Z) in E. split; [assert (c1 = c) by congruence; lia|].
        assert (X : fst (exec o w) = w1) by (destruct (exec o w); simpl in *; congruence). subst w1.
        destruct o as [g|g|g|g|g off len|g ap off d|g|g n]; cbn [chances] in Z; try discriminate Z; cbn [exec];
          destruct (wget w g) as [x|] eqn:G; auto; cbn [fst];
          destruct f, g; simpl; auto.
      - destruct (fexec_after t c o w Ht) as (c2 & L & E2); [lia|]. rewrite E2 in E.
        split; [assert (c1 = c2) by congruence; lia|]. left. congruence. }
    destruct (IH r t c1 w1 w' a' c' ltac:(lia) H f) as [-> |X]; auto.
Qed.

Lemma flush_simulated e a M0 evs os M t c w' s' c' :
  good_args a -> iter_ok e -> started e a M0 -> happened e M0 evs os M ->
  Forall (fun ev => valid_op (ca_key_size a) (event_op ev)) evs ->
  frun t c (store_flush e (m_store M)) (m_files M) = (w', s', c') ->
  exists w2, run (recover e) w' = (w2, Ok tt) /\ w_log w2 = None /\
    (same_files w2 (m_files M) \/
     exists w3 s3, run (op_prog e (m_store M) OpFlush) (m_files M) = (w3, (Some s3, ODone)) /\
       same_files w2 w3).
Proof.
  intros Ha Hi Hs Hh Hv Hf. destruct (frun_possible log_in_order _ _ _ _ _ _ _ (m_disk M) Hf) as (S' & HS).
  eapply recover_after_failure; eauto.
Qed.

Lemma recover_simulated e w t c v r c' : log_in_one_read w ->
  frun t c (recover e) w = (v, r, c') -> retried e w v.
Proof.
  intros Hl Hf. destruct (frun_possible log_in_order _ _ _ _ _ _ _ (durable w) Hf) as (S' & HS).
  eapply rt_again; [left; exists (Ret r); left; split; [exact Hl|exact HS]|left; reflexivity|apply rt_none].
Qed.

Lemma recovery_retried e a M0 evs os M c w1 w2 r w' :
  good_args a -> iter_ok e -> started e a M0 -> happened e M0 evs os M ->
  Forall (fun ev => valid_op (ca_key_size a) (event_op ev)) evs -> valid_op (ca_key_size a) c ->
  crash log_in_order (op_prog e (m_store M) c) (m_files M) (m_disk M) w1 ->
  run (recover e) w1 = (w2, r) -> retried e w1 w' ->
  r = Ok tt /\ run (recover e) w' = (w2, Ok tt) /\
  exists w3 s3, run (store_open e) w' = (w3, Ok s3) /\ same_files w3 w2.
Proof.
  intros Ha Hi Hs Hh Hv Hvo Hc Hr Hrt. apply retried_interrupted in Hrt.
  destruct (recovery_repeatable e a M0 evs os M c w1 w2 r w' Ha Hi Hs Hh Hv Hvo Hc Hr Hrt) as (X & Y & _ & Z). auto.
Qed.

Lemma failed_flush_retried e a M0 evs os M q w0 S0 w1 w' :
  good_args a -> iter_ok e -> started e a M0 -> happened e M0 evs os M ->
  Forall (fun ev => valid_op (ca_key_size a) (event_op ev)) evs ->
  fsteps log_in_order (store_flush e (m_store M)) (m_files M) (m_disk M) q w0 S0 -> w1 = w0 \/ on_disk S0 w1 ->
  retried e w1 w' ->
  exists w2, run (recover e) w1 = (w2, Ok tt) /\ run (recover e) w' = (w2, Ok tt) /\ w_log w2 = None /\
    (same_files w2 (m_files M) \/
     exists w3 s3, run (op_prog e (m_store M) OpFlush) (m_files M) = (w3, (Some s3, ODone)) /\ same_files w2 w3) /\
    exists w3 s3, run (store_open e) w' = (w3, Ok s3) /\ same_files w3 w2.
Proof.
  intros Ha Hi Hs Hh Hv Hf Hw Hrt.
  destruct (recover_after_failure e a M0 evs os M q w0 S0 w1 Ha Hi Hs Hh Hv Hf Hw) as (w2 & R & L & D).
  assert (Hcr : crash log_in_order (op_prog e (m_store M) OpFlush) (m_files M) (m_disk M) w1).
  { destruct (events_ok _ _ _ _ _ _ Ha Hi Hs Hh Hv) as (recs & T & m & d & (_ & _ & Hd) & _).
    eapply failed_flush_crash; eauto. }
  destruct (recovery_retried e a M0 evs os M OpFlush w1 w2 (Ok tt) w' Ha Hi Hs Hh Hv I Hcr R Hrt) as (_ & R2 & O).
  exists w2. split; [exact R|]. split; [exact R2|]. split; [exact L|]. split; [exact D|exact O].
Qed.
