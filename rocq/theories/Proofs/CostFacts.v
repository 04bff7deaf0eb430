(** What a flush costs. *)
From Verif Require Import Model.Bytes Model.Err Model.Field Model.Format Model.IO
  Model.BulkIO Model.Bucket Model.Pool Model.Recover Model.Store Model.Crash SpecCost
  Proofs.BytesFacts Proofs.IOFacts Proofs.PoolFacts Proofs.BucketFacts Proofs.HeaderFacts
  Proofs.FieldFacts Proofs.SafeFacts Proofs.CommitOps.
Opaque loop.

(** With credit [n], all that [p] does can be paid; [Q] holds of the result and what is
    left. *)
Fixpoint pays (W : io -> N) {A} (p : prog A) (n : N) (Q : A -> N -> Prop) : Prop :=
  match p with
  | Ret a => Q a n
  | Do o k => W o <= n /\ forall r, answers o r -> pays W (k r) (n - W o) Q
  end.

Lemma pays_spent W {A} (p : prog A) Q l : may_run l p -> forall n, pays W p n Q -> spent W l <= n.
Proof.
  induction 1 as [p|o k r l Ha Hm IH]; intros n Hp; [cbn; lia|].
  cbn [pays] in Hp. destruct Hp as [H1 H2]. specialize (IH _ (H2 r Ha)). cbn [spent fold_right]. fold (spent W l). lia.
Qed.

Lemma pays_weaken W {A} (p : prog A) (Q Q' : A -> N -> Prop) : (forall a m m', Q a m -> m <= m' -> Q' a m') ->
  forall n n', pays W p n Q -> n <= n' -> pays W p n' Q'.
Proof.
  intros HQ. induction p as [a|o k IH]; intros n n' Hp Hn; cbn [pays] in *; [eauto|].
  destruct Hp as [H1 H2]. split; [lia|]. intros r Hr. apply (IH r (n - W o)); auto. lia.
Qed.

Lemma pays_bind W {A B} (p : prog A) (f : A -> prog B) Q : forall n,
  pays W p n (fun a m => pays W (f a) m Q) -> pays W (bind p f) n Q.
Proof.
  induction p as [a|o k IH]; intros n Hp; cbn [bind pays] in *; auto.
  destruct Hp as [H1 H2]. split; auto.
Qed.

(** Postconditions: at least [c a] is left when the program succeeds with [a] in [R]. *)
Definition left {A} (R : A -> Prop) (c : A -> N) (r : res A) (m : N) : Prop :=
  match r with Ok a => R a /\ c a <= m | Er _ => True end.

Lemma pays_ebind W {A B} (p : prog (res A)) (f : A -> prog (res B)) R c R' c' n :
  pays W p n (left R c) -> (forall a, R a -> pays W (f a) (c a) (left R' c')) ->
  pays W (ebind p f) n (left R' c').
Proof.
  intros Hp Hf. unfold ebind. apply pays_bind. eapply pays_weaken; [|exact Hp|lia].
  intros [a|er] m m' H Hm; [|exact I]. destruct H as [H1 H2].
  eapply pays_weaken; [|apply Hf, H1|lia]. intros [b|er'] q q' Hq Hqq; cbn [left] in *; auto. split; [tauto|lia].
Qed.

Lemma pays_more W {A} (p : prog (res A)) R c n n' : n <= n' -> pays W p n (left R c) -> pays W p n' (left R c).
Proof.
  intros Hn Hp. eapply pays_weaken; [|exact Hp|exact Hn].
  intros [b|er'] q q' Hq Hqq; cbn [left] in *; auto. split; [tauto|lia].
Qed.

Lemma pays_free W {A} (p : prog (res A)) (R : A -> Prop) n :
  allops (fun o => W o = 0) (okres R) p -> pays W p n (left R (fun _ => n)).
Proof.
  induction p as [a|o k IH]; intros H; cbn [pays].
  - inversion H; subst. destruct a; cbn [left okres] in *; [split; [auto|lia]|exact I].
  - inversion H as [|o' k' Ho Hk]; subst. rewrite Ho. split; [lia|]. intros r _. rewrite N.sub_0_r. apply IH. auto.
Qed.

Lemma pays_ret W {A} (a : A) (R : A -> Prop) c n : R a -> c a <= n -> pays W (pret a) n (left R c).
Proof. intros. split; auto. Qed.
Lemma pays_unit W o (c : N) n : W o + c <= n -> pays W (do_unit o) n (left anyres (fun _ => c)).
Proof. intros H. cbn [do_unit pays]. split; [lia|]. intros [er|k d] _; cbn [pays left]; [exact I|]. split; [exact I|lia]. Qed.
Lemma pays_num W o (c : N) n : W o + c <= n -> pays W (do_num o) n (left anyres (fun _ => c)).
Proof. intros H. cbn [do_num pays]. split; [lia|]. intros [er|k d] _; cbn [pays left]; [exact I|]. split; [exact I|lia]. Qed.
Lemma pays_lift W {A} (r : res A) (R : A -> Prop) c n :
  okres R r -> (forall a, c a <= n) -> pays W (plift r) n (left R c).
Proof. intros H Hc. destruct r; cbn [plift pays left okres] in *; auto. Qed.

(** ** Caches *)
Lemma cache_set_len c n p : blen (cache_set c n p) <= blen c + 1.
Proof.
  induction c as [|[m q] c IH]; cbn [cache_set]; [rewrite blen_cons, blen_nil; lia|].
  destruct (m =? n); rewrite !blen_cons in *; lia.
Qed.
Lemma cache_set_same c n p : cache_find c n <> None -> blen (cache_set c n p) = blen c.
Proof.
  induction c as [|[m q] c IH]; cbn [cache_find cache_set]; [congruence|].
  destruct (m =? n); intros H; rewrite !blen_cons; [reflexivity|]. rewrite IH; auto.
Qed.
Lemma cache_set_find c n p : cache_find (cache_set c n p) n <> None.
Proof.
  induction c as [|[m q] c IH]; cbn [cache_find cache_set]; [rewrite N.eqb_refl; congruence|].
  destruct (m =? n) eqn:E; cbn [cache_find]; [rewrite N.eqb_refl; congruence|]. rewrite E. exact IH.
Qed.
Definition blocks (bs : N) (c : cache) : Prop := Forall (fun x => blen (snd x) = bs) c.
Lemma blocks_set bs c n p : blocks bs c -> blen p = bs -> blocks bs (cache_set c n p).
Proof.
  unfold blocks. intros Hc Hp. induction c as [|[m q] c IH]; cbn [cache_set]; [constructor; auto|].
  inversion Hc; subst. destruct (m =? n); constructor; auto.
Qed.

(** ** Work on the data file only *)
Definition on_dat (o : io) : Prop :=
  match o with IoRead f _ _ => f = FDat | IoWrite f _ _ _ => f = FDat | IoSize f => f = FDat | _ => False end.
Notation P := on_dat.
Notation D := (fun w => bw_file w = FDat).

Lemma dat_bw_flush w : D w -> allops P (okres D) (bw_flush w).
Proof.
  intros Hf. unfold bw_flush. destruct (blen (bw_buf w) =? 0); [apply ao_pret; auto|].
  apply (ao_ebind P anyres); [apply ao_unit; exact Hf|]. intros _ _. apply ao_pret. auto.
Qed.
Lemma dat_bw_put w d : D w -> allops P (okres D) (bw_put w d).
Proof.
  intros Hw. unfold bw_put. apply (ao_ebind P D).
  - destruct (bw_cap w <? blen (bw_buf w) + blen d); [apply dat_bw_flush; auto|apply ao_pret; auto].
  - intros w1 Hf. apply ao_pret. auto.
Qed.
Lemma dat_bk_read p off : allops P (okres anyres) (bk_read p FDat off).
Proof.
  unfold bk_read. apply (ao_ebind P anyres); [apply ao_data; reflexivity|]. intros d _.
  destruct (bucket_capacity (blen p) <? bk_size (bk_of_blob (bwrite 0 d p))); [apply ao_pfail|apply ao_pret; exact I].
Qed.
Lemma dat_maybe_spill b w : D w -> allops P (okres (fun x => D (snd x))) (maybe_spill b w).
Proof.
  intros Hw. unfold maybe_spill. destruct (bk_full b); [|apply ao_pret; auto].
  apply (ao_ebind P D); [apply dat_bw_put; auto|]. intros w1 H1.
  destruct (281474976710655 <? bw_offset w + 8); [apply ao_pfail|apply ao_pret; auto].
Qed.
Lemma dat_split_spill n2 B M tmp fuel : forall i b1 b2 w, D w ->
  allops P (okres (fun x => D (snd x))) (split_spill fuel n2 B M tmp i b1 b2 w).
Proof.
  induction fuel as [|k IH]; intros i b1 b2 w Hw; cbn [split_spill]; [apply ao_pret; auto|].
  destruct (bucket_index (en_hash (bk_at tmp i)) B M =? n2);
    (eapply ao_ebind; [apply dat_maybe_spill; auto|]; intros [b w1] H1; cbv beta iota;
     eapply (ao_ebind P anyres); [apply ao_lift; destruct (bk_insert _ _ _ _); exact I|]; intros; apply IH; auto).
Qed.
Lemma dat_split e kh b1 b2 n2 B M w : D w ->
  allops P (okres (fun x => D (snd x))) (Store.split e kh b1 b2 n2 B M w).
Proof.
  intros Hw. unfold Store.split. destruct (bk_size b1 =? 0); [apply ao_pret; auto|].
  apply (ao_ebind P anyres); [apply ao_lift; destruct (split_own _ _ _ _ _ _ _); exact I|].
  intros [x1 x2] _. cbv beta iota zeta. destruct (bk_spill x1 =? 0); [apply ao_pret; auto|].
  apply (ao_loop P (fun st => D (snd st))); [|auto].
  intros [[[spill y1] y2] w1] H1. unfold split_step. cbn [snd] in H1.
  eapply (ao_bind P (okres (fun x => D (snd x)))).
  - apply (ao_ebind P D).
    { destruct (bw_offset w1 - bw_size w1 <? _); [apply dat_bw_flush; auto|apply ao_pret; auto]. }
    intros w2 H2. apply (ao_ebind P anyres); [apply dat_bk_read|]. intros tmp _.
    eapply ao_ebind; [apply dat_split_spill; auto|]. intros [[z1 z2] w3] H3. apply ao_pret; auto.
  - intros [[[[s' z1] z2] w3]|er] H3; [|constructor; exact I].
    destruct (s' =? 0); constructor; auto.
Qed.
Lemma dat_commit_records l : forall w, D w ->
  allops P (okres (fun x => D (snd x) /\ blen (fst x) = blen l)) (commit_records l w).
Proof.
  induction l as [|x l IH]; intros w Hw; cbn [commit_records]; [apply ao_pret; auto|].
  eapply ao_ebind; [apply dat_bw_put; auto|]. intros w1 H1.
  eapply ao_ebind; [apply IH; auto|]. intros [r w2] [H2 H3]. apply ao_pret. cbn [fst snd] in *.
  rewrite !blen_cons. split; [auto|lia].
Qed.

(** ** Building the new buckets *)
Section Commit.
Variables (e : env) (kh : key_header) (W : io -> N) (c : N).
Notation bs := (kh_block_size kh).
Hypothesis Hbs : 8 <= bs.
Hypothesis Hdat : forall o, on_dat o -> W o = 0.
Hypothesis Hkey : forall off len, W (IoRead FKey off len) = c.

Lemma pays_dat {A} (p : prog (res A)) (R : A -> Prop) n :
  allops P (okres R) p -> pays W p n (left R (fun _ => n)).
Proof using Hdat. intros H. apply pays_free. eapply ao_weaken; [exact H|exact Hdat|auto]. Qed.

Lemma pays_load n c0 c1 m : blocks bs c0 ->
  pays W (load e kh n c0 c1) (c + m)
    (left (fun x => blocks bs (snd (fst x)) /\ blen (snd (fst x)) <= blen c0 + 1 /\ blen (snd x) <= blen c1 + 1 /\
       cache_find (snd x) n <> None)
          (fun _ => m)).
Proof using All.
  intros Hc0. unfold load. destruct (cache_find c1 n) eqn:Ef.
  { apply pays_ret; [|lia]. cbn [fst snd]. split; [exact Hc0|]. split; [lia|]. split; [lia|congruence]. }
  destruct (cache_find c0 n) as [p|].
  { cbv zeta. apply pays_ret; [|lia]. cbn [fst snd]. split; [exact Hc0|]. 
    pose proof (cache_set_len c1 n (cache_blob e (bk_of_blob p))). split; [lia|]. split; [lia|apply cache_set_find]. }
  apply (pays_ebind W _ _ (fun b => bk_bs b = bs) (fun _ => m)).
  - unfold bk_read. rewrite blen_fresh. unfold p_read, do_data, ebind. cbn [bind pays].
    rewrite Hkey. split; [lia|]. intros [er|k d] Ha; cbn [bind pays left]; [exact I|]. cbn [answers] in Ha.
    destruct (_ <? _); cbn [pfail pret pays left]; [exact I|]. split; [|lia].
    unfold bk_bs, bk_of_blob. cbn [bk_blob]. rewrite blen_bwrite_gen, blen_fresh, Ha.
    destruct (cap_bound bs) as [X| ->]; [lia|unfold bucket_size; lia].
  - intros b Hb. cbv zeta. apply pays_ret; [|lia]. cbn [fst snd].
    pose proof (cache_set_len c0 n (cache_blob e b)). pose proof (cache_set_len c1 n (cache_blob e b)).
    split; [|split; [lia|split; [lia|apply cache_set_find]]]. apply blocks_set; [exact Hc0|]. unfold cache_blob, bk_compact.
    rewrite blen_bwrite_gen, blen_fresh, blen_btake, Hb. unfold bk_bs in Hb. lia.
Qed.

Definition held (n : N) (st : cstate) : Prop :=
  bw_file (cs_w st) = FDat /\ blocks bs (cs_c0 st) /\ blen (cs_c0 st) <= 2 * n /\ blen (cs_c1 st) <= 3 * n.

Lemma pays_commit_insert th xo st n m : held n st ->
  pays W (commit_insert e kh th xo st) (2 * c + m) (left (held (n + 1)) (fun _ => m)).
Proof using All.
  intros (H1 & H2 & H3 & H4). destruct xo as [x off]. unfold commit_insert.
  apply (pays_ebind W _ _ (fun st' => bw_file (cs_w st') = FDat /\ blocks bs (cs_c0 st') /\
    blen (cs_c0 st') <= 2 * n + 1 /\ blen (cs_c1 st') <= 3 * n + 2) (fun _ => c + m)).
  - unfold commit_split. cbv zeta. destruct (th <=? cs_frac st + 65536).
    + eapply (pays_ebind W). { eapply (pays_more W _ _ _ (c + (c + m))); [lia|]. apply pays_load, H2. }
      intros [[b1 d0] d1] (A1 & A2 & A3 & A4). cbn [fst snd] in *. cbv beta iota zeta.
      eapply (pays_ebind W); [apply pays_dat, dat_split; auto|].
      intros [[y1 y2] w1] B1. cbn [snd] in B1. cbv beta iota zeta. apply pays_ret; [|lia].
      cbn [cs_w cs_c0 cs_c1]. split; [exact B1|]. split; [exact A1|]. split; [lia|].
      etransitivity; [apply cache_set_len|]. rewrite cache_set_same by exact A4. lia.
    + apply pays_ret; [|lia]. cbn [cs_w cs_c0 cs_c1]. split; [exact H1|]. split; [exact H2|]. lia.
  - intros st1 (A1 & A2 & A3 & A4). cbv zeta.
    eapply (pays_ebind W); [apply pays_load, A2|]. intros [[b d0] d1] (B1 & B2 & B3 & B4). cbn [fst snd] in *. cbv beta iota zeta.
    eapply (pays_ebind W); [apply pays_dat, dat_maybe_spill; auto|]. intros [b' w1] C1. cbn [snd] in C1. cbv beta iota zeta.
    apply (pays_ebind W _ _ anyres (fun _ => m)).
    { apply pays_lift; [destruct (bk_insert _ _ _ _); exact I|intros; lia]. }
    intros b2 _. apply pays_ret; [|lia]. unfold held. cbn [cs_w cs_c0 cs_c1].
    split; [exact C1|]. split; [exact B1|]. split; [lia|].
    rewrite cache_set_same by exact B4. lia.
Qed.

Lemma pays_commit_inserts th l : forall st n m, held n st ->
  pays W (commit_inserts e kh th l st) (2 * c * blen l + m) (left (held (n + blen l)) (fun _ => m)).
Proof using All.
  induction l as [|x l IH]; intros st n m Hs; cbn [commit_inserts].
  - apply pays_ret; [rewrite blen_nil, N.add_0_r; exact Hs|lia].
  - assert (E : n + blen (x :: l) = n + 1 + blen l) by (rewrite blen_cons; lia). rewrite E.
    apply (pays_ebind W _ _ (held (n + 1)) (fun _ => 2 * c * blen l + m)).
    { eapply (pays_more W _ _ _ (2 * c + (2 * c * blen l + m))); [rewrite blen_cons; lia|]. apply pays_commit_insert, Hs. }
    intros st1 H1. apply IH, H1.
Qed.

Lemma pays_commit_data th fr B M l m :
  pays W (commit_data e kh th fr B M l) (2 * c * blen l + m) (left (held (blen l)) (fun _ => m)).
Proof using All.
  unfold commit_data. eapply (pays_ebind W).
  { apply (pays_dat (p_size FDat) anyres). apply ao_num. reflexivity. }
  intros size _. cbv zeta. eapply (pays_ebind W); [apply pays_dat, dat_commit_records; reflexivity|].
  intros [l' w] [H1 H2]. cbn [fst snd] in *. cbv beta iota. rewrite <- H2.
  eapply (pays_ebind W).
  { apply pays_commit_inserts with (n := 0). split; [exact H1|]. cbn [cs_c0 cs_c1]. rewrite !blen_nil. split; [constructor|lia]. }
  intros st Hs. eapply (pays_ebind W); [apply pays_dat, dat_bw_flush, Hs|].
  intros w' Hw'. apply pays_ret; [|lia]. destruct Hs as (_ & X). rewrite N.add_0_l in X. split; [exact Hw'|exact X].
Qed.
End Commit.

(** ** The whole flush *)
Section Flush.
Variables (e : env) (W : io -> N) (c kw sy tr lb : N).
Hypothesis Hit : iter_ok e.
Hypothesis Hdat : forall o, on_dat o -> W o = 0.
Hypothesis Hsize : forall f, W (IoSize f) = 0.
Hypothesis Hkey : forall off len, W (IoRead FKey off len) = c.
Hypothesis Hkw : forall ap off d, W (IoWrite FKey ap off d) = kw.
Hypothesis Hsync : forall f, W (IoSync f) = sy.
Hypothesis Htrunc : forall f n, W (IoTrunc f n) = tr.
Hypothesis Hlog : forall ap off d, W (IoWrite FLog ap off d) = lb * blen d.

Lemma pays_log_flush w m : bw_file w = FLog ->
  pays W (bw_flush w) (lb * blen (bw_buf w) + m) (left (fun w' => bw_file w' = FLog /\ blen (bw_buf w') = 0) (fun _ => m)).
Proof using All.
  intros Hf. unfold bw_flush. destruct (N.eqb_spec (blen (bw_buf w)) 0) as [Z|Z].
  - apply pays_ret; [auto|lia].
  - apply (pays_ebind W _ _ anyres (fun _ => m)).
    + apply pays_unit. rewrite Hf, Hlog. lia.
    + intros _ _. apply pays_ret; [|lia]. split; [exact Hf|reflexivity].
Qed.
Lemma pays_log_put w d m : bw_file w = FLog ->
  pays W (bw_put w d) (lb * (blen (bw_buf w) + blen d) + m)
    (left (fun w' => bw_file w' = FLog) (fun w' => lb * blen (bw_buf w') + m)).
Proof using All.
  intros Hf. unfold bw_put. cbv zeta.
  apply (pays_ebind W _ _ (fun w' => bw_file w' = FLog) (fun w' => lb * (blen (bw_buf w') + blen d) + m)).
  - destruct (bw_cap w <? blen (bw_buf w) + blen d).
    + eapply pays_weaken; [|apply (pays_log_flush w (lb * blen d + m) Hf)|lia].
      intros [w'|er] q q' H Hq; [|exact I]. destruct H as ((A & B) & C). split; [exact A|]. rewrite B. lia.
    + apply pays_ret; [exact Hf|lia].
  - intros w' Hw'. apply pays_ret; [exact Hw'|]. cbn [bw_buf]. rewrite blen_app. lia.
Qed.

Lemma pays_log_records bs cc : blocks bs cc -> forall w m, bw_file w = FLog ->
  pays W (commit_log_records cc w) (lb * (blen (bw_buf w) + blen cc * (8 + bs)) + m)
    (left (fun w' => bw_file w' = FLog) (fun w' => lb * blen (bw_buf w') + m)).
Proof using All.
  induction 1 as [|[n p] cc Hp Hc IH]; intros w m Hf; cbn [commit_log_records].
  - apply pays_ret; [exact Hf|]. replace (blen (@nil (N * bytes))) with 0 by reflexivity. lia.
  - cbn [snd] in Hp. eapply (pays_ebind W _ _ (fun w' => bw_file w' = FLog) (fun w' => lb * (blen (bw_buf w') + blen cc * (8 + bs)) + m)).
    + eapply pays_weaken; [|apply (pays_log_put w (log_record (n, p)) (lb * (blen cc * (8 + bs)) + m) Hf)|].
      * intros [w'|er] q q' H Hq; [|exact I]. destruct H as (A & B). split; [exact A|]. lia.
      * assert (L : blen (log_record (n, p)) <= 8 + bs).
        { unfold log_record, bk_compact. rewrite blen_app, blen_wr64, blen_btake. cbn [fst snd bk_of_blob bk_blob]. lia. }
        assert (L2 : blen ((n, p) :: cc) = blen cc + 1) by (rewrite blen_cons; lia).
        change bytes with (list N) in *. rewrite L2.
        clear - L. generalize dependent (blen (log_record (n, p))). generalize (blen (bw_buf w)) (blen cc). intros; nia.
    + intros w' Hw'. apply IH, Hw'.
Qed.

Lemma pays_log bs c0 m : blocks bs c0 ->
  pays W (commit_log e c0) (lb * (blen c0 * (8 + bs)) + sy + m) (left anyres (fun _ => m)).
Proof using All.
  intros Hc. unfold commit_log.
  apply (pays_ebind W _ _ anyres (fun _ => lb * (blen c0 * (8 + bs)) + sy + m)); [apply pays_num; rewrite Hsize; lia|].
  intros size _. cbv zeta.
  apply (pays_ebind W _ _ (fun w' => bw_file w' = FLog) (fun w' => lb * blen (bw_buf w') + (sy + m))).
  - eapply pays_more; [|apply (pays_log_records bs); [|reflexivity]].
    + cbn [bw_make bw_buf]. rewrite blen_nil. unfold blen. rewrite (Permutation_length (Hit c0)). lia.
    + unfold blocks in *. rewrite Forall_forall in *. intros x Hx. apply Hc.
      eapply Permutation_in; [symmetry; apply Hit|exact Hx].
  - intros w' Hw'. eapply (pays_ebind W); [apply pays_log_flush, Hw'|]. intros w2 _. apply pays_unit. rewrite Hsync. lia.
Qed.

Lemma pays_key bs cc m : pays W (commit_key bs cc) (kw * blen cc + m) (left anyres (fun _ => m)).
Proof using All.
  induction cc as [|[n p] cc IH]; cbn [commit_key]; [apply pays_ret; [exact I|lia]|].
  apply (pays_ebind W _ _ anyres (fun _ => kw * blen cc + m)).
  - unfold bk_write. apply pays_unit. rewrite Hkw, blen_cons. lia.
  - intros _ _. exact IH.
Qed.

Lemma pays_commit s : 8 <= kh_block_size (st_kh s) ->
  let n := blen (pl_map (st_p1 s)) in
  pays W (commit e s)
    (lb * (62 + 2 * n * (8 + kh_block_size (st_kh s))) + 5 * sy + tr + 2 * c * n + kw * (3 * n))
    (left anyres (fun _ => 0)).
Proof using All.
  intros Hbs. cbv zeta. unfold commit. cbv zeta. set (kh := st_kh s) in *. set (l := pl_map (st_p1 s)).
  set (L := lb * (2 * blen l * (8 + kh_block_size kh))).
  apply (pays_ebind W _ _ anyres (fun _ => 2 * c * blen l + (L + sy + (kw * (3 * blen l) + (3 * sy + tr))))).
  { unfold commit_begin.
    eapply (pays_ebind W _ _ anyres); [apply pays_num; rewrite Hsize; apply N.le_refl|]. intros k _.
    eapply (pays_ebind W _ _ anyres); [apply pays_num; rewrite Hsize; apply N.le_refl|]. intros d _.
    eapply (pays_ebind W _ _ anyres (fun _ => sy + (2 * c * blen l + (L + sy + (kw * (3 * blen l) + (3 * sy + tr)))))).
    - apply pays_unit. rewrite Hlog, blen_log_header. unfold log_hdr_size, L. lia.
    - intros _ _. apply pays_unit. rewrite Hsync. lia. }
  intros _ _. eapply (pays_ebind W); [apply (pays_commit_data e kh W c Hbs Hdat Hkey)|].
  intros st (_ & A1 & A2 & A3).
  apply (pays_ebind W _ _ anyres (fun _ => kw * (3 * blen l) + (3 * sy + tr))).
  { eapply pays_more; [|apply (pays_log (kh_block_size kh)); exact A1]. unfold L.
    apply N.add_le_mono_r, N.add_le_mono_r, N.mul_le_mono_l, N.mul_le_mono_r. exact A2. }
  intros _ _. apply (pays_ebind W _ _ anyres (fun _ => 3 * sy + tr)).
  { eapply pays_more; [|apply pays_key].
    apply N.add_le_mono_r, N.mul_le_mono_l. unfold blen in *. rewrite <- (Permutation_length (Hit (cs_c1 st))). exact A3. }
  intros _ _. apply (pays_ebind W _ _ anyres (fun _ => 0)).
  { unfold commit_end.
    apply (pays_ebind W _ _ anyres (fun _ => 2 * sy + tr)); [apply pays_unit; rewrite Hsync; lia|]. intros _ _.
    apply (pays_ebind W _ _ anyres (fun _ => sy + tr)); [apply pays_unit; rewrite Hsync; lia|]. intros _ _.
    apply (pays_ebind W _ _ anyres (fun _ => sy)); [apply pays_unit; rewrite Htrunc; lia|]. intros _ _.
    apply pays_unit; rewrite Hsync; lia. }
  intros _ _. apply pays_ret; [exact I|lia].
Qed.

Lemma spent_flush s l : 8 <= kh_block_size (st_kh s) -> may_run l (store_flush e s) ->
  let n := blen (pl_map (st_p1 s)) in
  spent W l <= lb * (62 + 2 * n * (8 + kh_block_size (st_kh s))) + 5 * sy + tr + 2 * c * n + kw * (3 * n).
Proof using All.
  intros Hbs Hm n. eapply (pays_spent W _ (fun _ _ => True)); [exact Hm|].
  unfold store_flush. destruct (pool_is_empty (st_p1 s)); [exact I|]. destruct (st_ec s); [exact I|].
  apply pays_bind. eapply pays_weaken; [|apply pays_commit, Hbs|apply N.le_refl].
  intros [s'|er] m m' _ _; exact I.
Qed.
End Flush.

Lemma carried_out_may {A} (p : prog A) : forall w, may_run (carried_out p w) p.
Proof.
  induction p as [a|o k IH]; intros w; cbn [carried_out]; [constructor|].
  destruct (exec o w) as [w' r] eqn:E. econstructor; [|apply IH].
  destruct o; cbn [answers]; auto. destruct r as [er|n d]; auto. cbn [exec] in E.
  destruct (wget w f) as [c|]; [|discriminate E].
  destruct ((len =? 0) || (off + len <=? blen c)) eqn:B; [|discriminate E].
  injection E as <- <- <-. unfold bsub. rewrite blen_btake, blen_bdrop. lia.
Qed.
