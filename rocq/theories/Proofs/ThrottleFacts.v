(** Delays of insert(). *)
From Verif Require Import Model.Bytes Model.Err Model.Field Model.Format Model.IO
  Model.BulkIO Model.Bucket Model.Pool Model.Recover Model.Create Model.Store Model.History Model.Throttle
  Spec SpecCost SpecVisit SpecThrottle
  Proofs.BytesFacts Proofs.IOFacts Proofs.PoolFacts Proofs.BucketFacts Proofs.StoreInv
  Proofs.HistoryFacts Proofs.LifeFacts Proofs.WrittenFacts Proofs.SafeFacts Proofs.CommitOps Proofs.CostFacts.
Opaque loop.

Lemma pays_run W {A} (p : prog A) Q : forall n w, pays W p n Q -> exists m, Q (snd (run p w)) m.
Proof.
  induction p as [a|o k IH]; intros n w Hp; cbn [run pays] in *; [eauto|].
  destruct Hp as [_ Hk]. destruct (exec o w) as [w' r] eqn:E.
  eapply IH. apply Hk. clear - E. destruct o; cbn [SpecCost.answers]; auto. destruct r as [er|n d]; auto. cbn [exec] in E.
  destruct (wget w f) as [c|]; [|discriminate E].
  destruct ((len =? 0) || (off + len <=? blen c)) eqn:B; [|discriminate E].
  injection E as <- <- <-. unfold bsub. rewrite blen_btake, blen_bdrop. lia.
Qed.

(** The number of buckets that a commit reads and writes. *)
Lemma commit_data_held e kh th fr B M l w w' st : 8 <= kh_block_size kh ->
  run (commit_data e kh th fr B M l) w = (w', Ok st) ->
  blen (cs_c0 st) <= 2 * blen l /\ blen (cs_c1 st) <= 3 * blen l.
Proof.
  intros Hbs Hr.
  destruct (pays_run (fun _ => 0) _ _ _ w (pays_commit_data e kh (fun _ => 0) 0 Hbs (fun _ _ => eq_refl) (fun _ _ => eq_refl) th fr B M l 0)) as (m & Hq).
  rewrite Hr in Hq. destruct Hq as ((_ & _ & X) & _). exact X.
Qed.

(** commit and commit_w do the same. *)
Lemma commit_w_ok e s w :
  match run (commit e s) w with
  | (w', Ok s') => exists n, run (commit_w e s) w = (w', Ok (s', n)) /\
      (8 <= kh_block_size (st_kh s) ->
       n <= pl_data_size (st_p1 s) + 7 * blen (pl_map (st_p1 s)) * kh_block_size (st_kh s))
  | (w', Er er) => run (commit_w e s) w = (w', Er er)
  end.
Proof.
  unfold commit, commit_w. cbv zeta. rewrite !run_ebind.
  destruct (run (commit_begin e (st_kh s)) w) as [w1 [[]|er]]; [|reflexivity]. rewrite !run_ebind.
  destruct (run (commit_data e (st_kh s) (st_thresh s) (st_frac s) (st_buckets s) (st_modulus s) (pl_map (st_p1 s))) w1) as [w2 [st|er]] eqn:Ed; [|reflexivity].
  rewrite !run_ebind. destruct (run (commit_log e (cs_c0 st)) w2) as [w3 [[]|er]]; [|reflexivity].
  rewrite !run_ebind. destruct (run (commit_key (kh_block_size (st_kh s)) (e_iter e (cs_c1 st))) w3) as [w4 [[]|er]]; [|reflexivity].
  rewrite !run_ebind. destruct (run commit_end w4) as [w5 [[]|er]]; [|reflexivity].
  unfold pret. cbn [run]. eexists. split; [reflexivity|]. intros Hbs.
  destruct (commit_data_held _ _ _ _ _ _ _ _ _ _ Hbs Ed) as [H1 H2]. clear - H1 H2.
  revert H1 H2. generalize (blen (cs_c0 st)) (blen (cs_c1 st)) (blen (pl_map (st_p1 s))) (kh_block_size (st_kh s)). intros; nia.
Qed.

Lemma flush_w_ok e s w w' s' : run (store_flush e s) w = (w', s') ->
  exists n, run (flush_w e s) w = (w', (s', n)) /\
    (pool_is_empty (st_p1 s) = true -> s' = s) /\
    (pool_is_empty (st_p1 s) = false -> st_ec s' = None -> st_p1 s' = st_p0 s) /\
    match n with
    | Some n => 8 <= kh_block_size (st_kh s) -> n <= pl_data_size (st_p1 s) + 7 * blen (pl_map (st_p1 s)) * kh_block_size (st_kh s)
    | None => True
    end.
Proof.
  unfold store_flush, flush_w. destruct (pool_is_empty (st_p1 s)).
  { cbn [run]. intros X. injection X as <- <-. exists None. split; [reflexivity|]. split; [reflexivity|]. split; [discriminate|exact I]. }
  destruct (st_ec s) as [er|] eqn:Eec.
  { cbn [run]. intros X. injection X as <- <-. exists None. split; [reflexivity|]. split; [discriminate|]. split; [|auto]. discriminate. }
  rewrite !run_bind. pose proof (commit_w_ok e s w) as X. destruct (run (commit e s) w) as [w1 [s1|er]] eqn:Ec.
  - destruct X as (n & -> & Hn). cbn [run]. intros Y. injection Y as <- <-. exists (Some n). split; [reflexivity|]. split; [discriminate|].
    split; [|exact Hn]. intros _ _. clear - Ec. unfold commit in Ec. cbv zeta in Ec.
    rewrite run_ebind in Ec. destruct (run (commit_begin e (st_kh s)) w) as [? [[]|?]]; [|discriminate].
    rewrite run_ebind in Ec. destruct (run (commit_data _ _ _ _ _ _ _) _) as [? [st|?]]; [|discriminate].
    rewrite run_ebind in Ec. destruct (run (commit_log _ _) _) as [? [[]|?]]; [|discriminate].
    rewrite run_ebind in Ec. destruct (run (commit_key _ _) _) as [? [[]|?]]; [|discriminate].
    rewrite run_ebind in Ec. destruct (run commit_end _) as [? [[]|?]]; [|discriminate].
    unfold pret in Ec. cbn [run] in Ec. injection Ec as <- <-. reflexivity.
  - rewrite X. cbn [run]. intros Y. injection Y as <- <-. exists None. split; [reflexivity|]. split; [discriminate|].
    split; [|auto]. discriminate.
Qed.

(** ** One call *)
Section Step.
Variables (per : N -> N -> N) (e : env) (s : store) (li : limiter) (w : world).

Definition sleeps (c : op) (s1 : option store) (o : out) (t0 : N) : bool :=
  match c, s1, o with
  | OpInsert _ _, Some s', OInserted => throttled per li s' t0
  | _, _, _ => false
  end.

Lemma insert_out_ok (r : res store) : match r with Ok _ => insert_out r = OInserted | Er _ => insert_out r <> OInserted end.
Proof using. destruct r as [x|er]; [reflexivity|]. destruct er; discriminate. Qed.

Lemma tcall_step c t0 t1 w' s1 o : do_op e s c w = (w', s1, o) ->
  exists li', run (tcall_prog per e s li (TCall c t0 t1)) w =
      (w', (option_map (fun x => (x, li')) s1, o, sleeps c s1 o t0)) /\
    match c with
    | OpInsert _ _ | OpFetch _ => li' = li
    | OpReopen => li' = li_open t0
    | OpFlush => exists n, li' = li_flush per li t0 t1 n /\
        match n with
        | Some n => 8 <= kh_block_size (st_kh s) -> n <= pl_data_size (st_p1 s) + 7 * blen (pl_map (st_p1 s)) * kh_block_size (st_kh s)
        | None => True
        end
    end.
Proof using All.
  destruct c as [k v|k| |]; intros Hd; cbn [tcall_prog].
  - rewrite do_op_insert in Hd. rewrite run_bind. destruct (run (store_insert e s k v) w) as [w1 r]. injection Hd as <- <- <-.
    exists li. split; [|reflexivity]. pose proof (insert_out_ok r) as X. destruct r as [s'|er]; cbn [run option_map].
    + rewrite X. reflexivity.
    + cbn [sleeps]. destruct (insert_out (Er er)); try reflexivity. congruence.
  - rewrite do_op_fetch in Hd. rewrite run_bind. destruct (run (store_fetch e s k) w) as [w1 r]. injection Hd as <- <- <-.
    exists li. split; [|reflexivity]. reflexivity.
  - rewrite do_op_flush in Hd. rewrite run_bind. destruct (run (store_flush e s) w) as [w2 s2] eqn:Ef.
    destruct (flush_w_ok _ _ _ _ _ Ef) as (n & -> & _ & _ & Hn). injection Hd as <- <- <-.
    exists (li_flush per li t0 t1 n). split; [reflexivity|]. exists n. auto.
  - rewrite do_op_reopen in Hd. rewrite run_bind. exists (li_open t0). split; [|reflexivity].
    destruct (run (store_close e s) w) as [w1 [u|er]]; [|injection Hd as <- <- <-; reflexivity].
    rewrite run_bind. destruct (run (store_open e) w1) as [w2 [s2|er]]; injection Hd as <- <- <-; reflexivity.
Qed.
End Step.

(** ** Throttling changes nothing else *)
Lemma do_ops_cons e s c l w : do_ops e s (c :: l) w =
  match do_op e s c w with
  | (w', Some s', OAborted) => (w', None, [OAborted])
  | (w', Some s', o) => let '(w'', s'', os) := do_ops e s' l w' in (w'', s'', o :: os)
  | (w', None, o) => (w', None, [o])
  end.
Proof. reflexivity. Qed.
Lemma tcalls_cons per e s li c l w : tcalls per e s li (c :: l) w =
  match run (tcall_prog per e s li c) w with
  | (w', (Some _, OAborted, b)) => (w', None, [(OAborted, b)])
  | (w', (Some (s', li'), o, b)) => let '(w'', s'', os) := tcalls per e s' li' l w' in (w'', s'', (o, b) :: os)
  | (w', (None, o, b)) => (w', None, [(o, b)])
  end.
Proof. reflexivity. Qed.

Lemma call_answers_nil l : call_answers l [] = [].
Proof. destruct l as [|[]]; reflexivity. Qed.

Lemma tcalls_same per e l : forall s li w w' x os, tcalls per e s li l w = (w', x, os) ->
  do_ops e s (untimed l) w = (w', option_map fst x, call_answers l os).
Proof.
  induction l as [|[c t0 t1|n] l IH]; intros s li w w' x os H.
  - cbn [tcalls] in H. injection H as <- <- <-. reflexivity.
  - cbn [untimed]. rewrite do_ops_cons. rewrite tcalls_cons in H.
    destruct (do_op e s c w) as [[w1 s1] o] eqn:Ed.
    destruct (tcall_step per e s li w c t0 t1 w1 s1 o Ed) as (li' & Hr & _). rewrite Hr in H. clear Hr.
    destruct s1 as [s1|]; cbn [option_map] in H.
    + destruct (tcalls per e s1 li' l w1) as [[w2 x2] os2] eqn:Et. specialize (IH _ _ _ _ _ _ Et). rewrite IH.
      destruct o; injection H as <- <- <-; cbn [call_answers]; rewrite ?call_answers_nil; reflexivity.
    + injection H as <- <- <-. cbn [call_answers option_map]. rewrite call_answers_nil. reflexivity.
  - cbn [untimed]. rewrite tcalls_cons in H. cbn [tcall_prog run] in H.
    destruct (tcalls per e s (li_set_burst n li) l w) as [[w2 x2] os2] eqn:Et. specialize (IH _ _ _ _ _ _ Et). rewrite IH.
    injection H as <- <- <-. reflexivity.
Qed.

(** A life without aborts and failures has no list of answers other than those. *)
Lemma tlife_same per e a now l : forall w x os, tlife per e a now l = (w, x, os) -> good_args a -> iter_ok e ->
  life e a (untimed l) = (w, option_map fst x, call_answers l os).
Proof.
  intros w x os H Ha Hit. destruct (lived_start e a Ha Hit) as (s0 & w0 & Hl & _).
  unfold tlife in H. specialize (Hl []) as Hl0. rewrite Hl. clear Hl. unfold life in Hl0.
  destruct (run (create e a) no_files) as [w1 [[]|er]]; [|discriminate].
  destruct (run (store_open e) w1) as [w2 [s|er]]; [|discriminate].
  cbn [do_ops] in Hl0. injection Hl0 as -> ->. eapply tcalls_same. exact H.
Qed.

(** ** When callers sleep *)
Section Sleep.
Variables (per : N -> N -> N) (e : env) (p : dbp).
Hypothesis Hp : dbp_ok p.
Hypothesis Hit : iter_ok e.
Notation bs := (db_block_size p).

Lemma open_pool w w' s : run (store_open e) w = (w', Ok s) -> st_p1 s = pool_empty.
Proof using.
  unfold store_open. intros H.
  do 9 (rewrite run_ebind in H;
    match type of H with (let '(_, _) := ?t in _) = _ => destruct t as [? [?|?]]; [|discriminate H] end).
  cbv zeta in H. destruct (_ <? 1); [discriminate H|]. unfold pret in H. cbn [run] in H. injection H as _ <-. reflexivity.
Qed.

Definition waits (s : store) (q : list (bytes * bytes)) : Prop :=
  pl_data_size (st_p1 s) = value_bytes q /\ blen (pl_map (st_p1 s)) = blen q.

Lemma pmap_insert_len l x : pmap_find l (pe_key x) = None -> blen (pmap_insert l x) = blen l + 1.
Proof using.
  intros Hf. pose proof (f_equal blen (kv_insert l x Hf)) as X. rewrite blen_map in X. rewrite X. clear X.
  rewrite <- (blen_map kv l). generalize (kv x) (map kv l). clear. intros y q.
  induction q as [|z q IH]; cbn [put_sorted]; [reflexivity|].
  destruct (blt (fst z) (fst y)); rewrite !blen_cons; [rewrite IH|]; lia.
Qed.

Lemma tcalls_sleep l : forall recs T s w i b m li q burst big,
  sinv e p recs T s w -> szinv recs s i b ->
  Forall (valid_op (db_key_size p)) (untimed l) -> (forall k, m k = abs recs s k) ->
  waits s q -> li_burst li = burst -> (li_rate li <> 0 -> big = true) ->
  forall w' x os j, tcalls per e s li l w = (w', x, os) ->
    nth j (map snd os) false = true -> nth j (may_sleep bs m q burst big l) false = true.
Proof using Hp Hit.
  induction l as [|[c t0 t1|n] l IH]; intros recs T s w i b m li q burst big Hi Hz Hv Hm Hq Hbu Hbig w' x os j Ht Hj.
  - cbn [tcalls] in Ht. injection Ht as <- <- <-. destruct j; discriminate.
  - cbn [untimed] in Hv. inversion Hv as [|? ? Hc Hl]; subst. rewrite tcalls_cons in Ht.
    assert (Hkb : kh_block_size (st_kh s) = bs) by (destruct (si_kh _ _ _ _ _ _ Hi) as (B & ->); reflexivity).
    assert (Hb8 : 8 <= kh_block_size (st_kh s)).
    { rewrite Hkb. pose proof (block_min _ (p_cap _ Hp)) as X. unfold key_hdr_size in X. lia. }
    destruct (do_op_ok e p Hp Hit _ _ _ _ _ _ _ m Hi Hz Hc Hm) as [(y & T1 & s1 & w1 & Hr & Hi1 & Hz1 & Hm1 & [Sr Sc _ Sk])|[Hbig' (w1 & o1 & Hr & _)]].
    2: { destruct (tcall_step per e s li w c t0 t1 _ _ _ Hr) as (li' & Ht' & _). rewrite Ht' in Ht. clear Ht'.
      assert (Z : sleeps per li c o1 OAborted t0 = false) by (destruct c, o1; reflexivity). rewrite Z in Ht.
      destruct o1; cbn [option_map] in Ht; injection Ht as <- <- <-; destruct j as [|[|j]]; discriminate. }
    destruct (tcall_step per e s li w c t0 t1 _ _ _ Hr) as (li' & Ht' & Hli). rewrite Ht' in Ht. clear Ht'. cbn [option_map] in Ht.
    assert (Ho : snd (spec_step m c) <> OAborted) by apply spec_step_not_aborted.
    destruct (tcalls per e s1 li' l w1) as [[w2 x2] os2] eqn:Et.
    assert (Hos : os = (snd (spec_step m c), sleeps per li c (Some s1) (snd (spec_step m c)) t0) :: os2).
    { clear - Ht Ho. destruct (snd (spec_step m c)); try congruence; injection Ht as <- <- <-; reflexivity. }
    subst os. clear Ht. cbn [map snd] in Hj.
    pose proof (fun q burst big => IH _ _ _ _ _ _ _ li' q burst big Hi1 Hz1 Hl Hm1) as IH1. clear IH. rename IH1 into IH.
    destruct c as [k v|k| |]; cbn [spec_step fst snd] in *.
    + rewrite do_op_insert in Hr. destruct (run (store_insert e s k v) w) as [w3 r3] eqn:Ei.
      pose proof (insert_out_ok r3) as Hro.
      cbn [may_sleep]. subst li'. destruct (m k) eqn:Em; cbn [fst snd] in *.
      * destruct r3 as [s3|er]; cbn [insert_out] in Hr; [discriminate|]. injection Hr as <- <- _.
        destruct j as [|j]; [discriminate|]. cbn [nth] in *. eapply IH; eauto.
      * destruct r3 as [s3|er]; [|exfalso; apply Hro; congruence]. injection Hr as <- <-.
        assert (Hq1 : waits s3 ((k, v) :: q)).
        { destruct Hq as [Q1 Q2]. unfold waits. rewrite (insert_pool _ _ _ _ _ _ _ Ei). unfold pool_insert. cbn [pl_data_size pl_map].
          rewrite pmap_insert_len, Q1, Q2, blen_cons; [split; [cbn [value_bytes fold_right snd]; fold (value_bytes q); lia|reflexivity]|].
          cbn [pe_key]. rewrite Hm in Em. unfold abs, pool_find in Em. destruct (pmap_find (pl_map (st_p1 s)) k); [discriminate|reflexivity]. }
        assert (Hkb1 : kh_block_size (st_kh s3) = bs) by (destruct (si_kh _ _ _ _ _ _ Hi1) as (B & ->); reflexivity).
        destruct j as [|j]; cbn [nth] in *; [|eapply IH; eauto].
        cbn [sleeps] in Hj. unfold throttled in Hj. cbv zeta in Hj. unfold waiting_work in Hj.
        destruct Hq1 as [Q1 Q2]. rewrite Q1, Q2, Hkb1 in Hj.
        apply andb_prop in Hj as [Hj H3]. apply andb_prop in Hj as [H1 H2].
        apply andb_true_intro. split; [|exact H3]. apply Hbig. destruct (N.eqb_spec (li_rate li) 0); [discriminate|auto].
    + rewrite do_op_fetch in Hr. destruct (run (store_fetch e s k) w) as [w3 r3]. cbn [may_sleep]. subst li'.
      assert (s1 = s) as -> by (destruct (m k); injection Hr; auto).
      destruct j as [|j]; [destruct (m k); discriminate|]. cbn [nth] in *.
      destruct (m k); cbn [fst snd] in *; (eapply IH; [exact Hq|reflexivity|exact Hbig|exact Et|exact Hj]).
    + cbn [may_sleep]. destruct j as [|j]; [discriminate|]. cbn [nth] in *.
      destruct Hli as (n & -> & Hn). destruct Hq as [Q1 Q2].
      rewrite do_op_flush in Hr. destruct (run (store_flush e s) w) as [w3 s3] eqn:Ef. injection Hr as <- <- _.
      destruct (flush_w_ok _ _ _ _ _ Ef) as (n' & _ & F1 & F2 & _).
      eapply IH; [| | |exact Et|exact Hj].
      * destruct (pool_is_empty (st_p1 s)) eqn:Ee.
        -- rewrite F1 by reflexivity. unfold pool_is_empty in Ee. unfold waits.
           destruct (pl_map (st_p1 s)) as [|y0 l0]; [|discriminate]. rewrite Q1.
           destruct q as [|z q]; [split; reflexivity|]. rewrite blen_cons, blen_nil in Q2. lia.
        -- unfold waits. rewrite (F2 eq_refl (si_ec _ _ _ _ _ _ Hi1)), (si_p0 _ _ _ _ _ _ Hi). split; reflexivity.
      * destruct n; reflexivity.
      * destruct n as [n|]; cbn [li_flush li_rate].
        -- specialize (Hn Hb8). rewrite Q1, Q2, Hkb in Hn.
           destruct (N.ltb_spec (li_burst li) n) as [L|L].
           ++ intros _. apply orb_true_intro. right. apply N.ltb_lt. lia.
           ++ intros X. rewrite (Hbig X). reflexivity.
        -- intros X. rewrite (Hbig X). reflexivity.
    + cbn [may_sleep]. destruct j as [|j]; [discriminate|]. cbn [nth] in *. subst li'.
      eapply IH; [| | |exact Et|exact Hj].
      * rewrite do_op_reopen in Hr. destruct (run (store_close e s) w) as [w3 [u|er]]; [|discriminate].
        destruct (run (store_open e) w3) as [w4 [s4|er]] eqn:Eo; [|discriminate]. injection Hr as <- <-.
        unfold waits. rewrite (open_pool _ _ _ Eo). split; reflexivity.
      * reflexivity.
      * intros X. exfalso. apply X. reflexivity.
  - cbn [untimed] in Hv. rewrite tcalls_cons in Ht. cbn [tcall_prog run] in Ht.
    destruct (tcalls per e s (li_set_burst n li) l w) as [[w2 x2] os2] eqn:Et. injection Ht as <- <- <-.
    cbn [may_sleep map snd] in *. destruct j as [|j]; [discriminate|]. cbn [nth] in *.
    eapply (IH recs T s w i b m (li_set_burst n li) q n big); eauto.
Qed.
End Sleep.

Lemma tlife_sleep per e a now l w x os j : good_args a -> iter_ok e ->
  Forall (valid_op (ca_key_size a)) (untimed l) -> tlife per e a now l = (w, x, os) ->
  nth j (map snd os) false = true ->
  nth j (may_sleep (ca_block_size a) sempty [] (4 * 1024 * 1024) false l) false = true.
Proof.
  intros Ha Hit Hv H. destruct (lived_start e a Ha Hit) as (s0 & w0 & Hl & Hs & He & _).
  destruct (good_args_ok a Ha) as (Hp & _).
  unfold tlife in H. specialize (Hl []) as Hl0. clear Hl. unfold life in Hl0.
  destruct (run (create e a) no_files) as [w1 [[]|er]]; [|discriminate].
  destruct (run (store_open e) w1) as [w2 [s|er]] eqn:Eo; [|discriminate].
  cbn [do_ops] in Hl0. injection Hl0 as -> ->.
  apply (tcalls_sleep per e (dbp_of a) Hp Hit l [] [([], 0)] s0 w0 0 0 sempty (li_open now) [] (4 * 1024 * 1024) false Hs) with (w' := w) (x := x).
  - split; rewrite He; reflexivity.
  - exact Hv.
  - intros k. unfold abs, pool_find. rewrite He. reflexivity.
  - unfold waits. rewrite (open_pool e _ _ _ Eo). split; reflexivity.
  - reflexivity.
  - intros X. exfalso. apply X. reflexivity.
  - exact H.
Qed.
