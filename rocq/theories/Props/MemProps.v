(** C52: no access outside a bucket's memory, whatever is in the files. *)
From Verif Require Import Model.Bytes Model.Err Model.Field Model.Format Model.IO Model.BulkIO
  Model.Bucket Model.Pool Model.Recover Model.Create Model.Store Model.History Model.Crash Model.BucketMem
  Spec Proofs.BytesFacts Proofs.IOFacts Proofs.MemFacts Props.Samples.
Opaque loop.

(** C52.  A store that open() has accepted, after any calls.  Reads may be answered
    with any bytes of the right number and any operation may fail, differently each
    time.  No call reads or writes outside the block of a bucket.  Missing: that
    calls end, and the same for open() itself, which are false (last theorems of
    this file). *)
Theorem C52_in_bounds_partial : forall e s, iter_ok e -> reached e s ->
  (forall k r, yields (ck_store_fetch e s k) r -> r <> Er EUB) /\
  (forall k v r, yields (ck_store_insert e s k v) r -> r <> Er EUB) /\
  (forall s', yields (ck_store_flush e s) s' -> st_ec s' <> Some EUB).
Proof.
  intros e s Hi Hr. pose proof (reached_fits e s Hi Hr) as H. split; [|split].
  - intros k r Hy ->. exact (proj2 (agree_yields _ _ _ (fetch_agree e s k H) _) Hy eq_refl).
  - intros k v r Hy ->. exact (proj2 (agree_yields _ _ _ (insert_agree e s k v H) _) Hy eq_refl).
  - intros s' Hy. exact (proj2 (proj2 (proj2 (proj2 (agree_yields _ _ _ (flush_agree e s Hi H) s') Hy)))).
Qed.

(** C52.  The calls with checked memory accesses are those of the model: the same
    results, whatever is read. *)
Theorem C52_checks_change_nothing : forall e s, iter_ok e -> reached e s ->
  (forall k r, yields (ck_store_fetch e s k) r <-> yields (store_fetch e s k) r) /\
  (forall k v r, yields (ck_store_insert e s k v) r <-> yields (store_insert e s k v) r) /\
  (forall s', yields (ck_store_flush e s) s' <-> yields (store_flush e s) s').
Proof.
  intros e s Hi Hr. pose proof (reached_fits e s Hi Hr) as H. split; [|split].
  - intros k r. exact (proj1 (agree_yields _ _ _ (fetch_agree e s k H) r)).
  - intros k v r. exact (proj1 (agree_yields _ _ _ (insert_agree e s k v H) r)).
  - intros s'. exact (proj1 (agree_yields _ _ _ (flush_agree e s Hi H) s')).
Qed.

(** What files of bytes answer is among the answers considered. *)
Lemma exec_plausible o w : (forall f c, wget w f = Some c -> bytes_ok c) -> plausible o (snd (exec o w)).
Proof.
  intros Hw. destruct o; cbn [exec]; destruct (wget w f) as [c|] eqn:E; cbn [snd plausible]; auto.
  - destruct ((len =? 0) || (off + len <=? blen c)) eqn:B; cbn [snd plausible]; [|exact I].
    split; [|apply bytes_ok_bsub; eapply Hw; exact E].
    destruct (N.eqb_spec len 0) as [->|Hn]; [unfold bsub; rewrite btake_0; reflexivity|].
    cbn [orb] in B. apply N.leb_le in B. apply blen_bsub. exact B.
  - destruct (_ && _); cbn [snd plausible]; exact I.
Qed.

(** Files of a database whose bucket 0, and the spill record it leads to, have been
    overwritten: the spill record leads to itself. *)
Definition sample_files : world := fst (run (create sample_env sample_args) no_files).
Definition cyclic_files : world :=
  match sample_files with
  | World (Some d) (Some k) l =>
    World (Some (bwrite 92 (wr48 0 ++ wr16 8 ++ wr16 0 ++ wr48 100 ++ zeros 90) d))
          (Some (bwrite 104 (wr16 0 ++ wr48 100) k)) l
  | w => w
  end.

(** A program answered from a list. *)
Fixpoint answered {A} (p : prog A) (l : list rsp) : option A :=
  match p, l with
  | Ret a, [] => Some a
  | Do _ k, r :: l => answered (k r) l
  | _, _ => None
  end.
Fixpoint answers_ok {A} (p : prog A) (l : list rsp) : bool :=
  match p, l with
  | Do o k, r :: l =>
    match r with
    | RErr er => match er with EUB | EAssert | EThrow | EDiverge => false | _ => true end
    | ROk _ d => match o with IoRead _ _ len => (blen d =? len) && forallb (fun x => x <? 256) d | _ => true end
    end && answers_ok (k r) l
  | _, _ => true
  end.
Lemma answered_yields {A} (p : prog A) : forall l a, answered p l = Some a -> answers_ok p l = true -> yields p a.
Proof.
  induction p as [x|o k IH]; intros [|r l] a; cbn [answered answers_ok]; try discriminate.
  - intros [= <-] _. constructor.
  - intros H Hb. apply andb_prop in Hb as [H1 H2]. apply yields_do with r; [|apply (IH r l); assumption].
    destruct r as [er|n d]; cbn [plausible]; [destruct er; auto; discriminate|].
    destruct o; auto. apply andb_prop in H1 as [L B]. split; [apply N.eqb_eq; exact L|].
    apply Forall_forall. rewrite forallb_forall in B. intros x Hx. apply N.ltb_lt. apply B. exact Hx.
Qed.

(** Answers of the files [w]. *)
Fixpoint replies {A} (p : prog A) (w : world) : list rsp :=
  match p with
  | Ret _ => []
  | Do o k => snd (exec o w) :: replies (k (snd (exec o w))) (fst (exec o w))
  end.

(** The hypotheses can be met: a store opened on the sample files, into which a key
    was inserted, then a fetch whose bucket is read as garbage: five equal hashes,
    a data record that is not that of the key five times, and a bucket with too many
    entries behind it. *)
Example C52_example :
  exists s s', yields (store_open sample_env) (Ok s) /\ reached sample_env s' /\ pl_map (st_p1 s') <> [] /\
    yields (ck_store_fetch sample_env s' [1; 2]) (Er invalid_bucket_size).
Proof.
  assert (X : exists s, answered (store_open sample_env) (replies (store_open sample_env) sample_files) = Some (Ok s) /\
     answers_ok (store_open sample_env) (replies (store_open sample_env) sample_files) = true /\
     let p := ck_store_insert sample_env s [3; 4] [5] in
     let l := [ROk 0 (zeros 98)] in
     answers_ok p l = true /\ exists s', answered p l = Some (Ok s') /\ pl_map (st_p1 s') <> [] /\
     let p := ck_store_fetch sample_env s' [1; 2] in
     let h := hash (e_hasher sample_env) (kh_salt (st_kh s')) [1; 2] in
     let en := enc_entry (Entry 7000 1 h) in
     let miss := ROk 0 [9; 9; 9] in
     let b := wr16 5 ++ wr48 281474976710655 ++ en ++ en ++ en ++ en ++ en in
     let l := [ROk 0 b; miss; miss; miss; miss; miss; ROk 0 (repeat 255 98)] in
     answers_ok p l = true /\ answered p l = Some (Er invalid_bucket_size)).
  { eexists. split; [vm_compute; reflexivity|]. split; [vm_compute; reflexivity|]. cbv zeta.
    split; [vm_compute; reflexivity|]. eexists. split; [vm_compute; reflexivity|]. split; [vm_compute; discriminate|].
    split; vm_compute; reflexivity. }
  destruct X as (s & A1 & B1 & B2 & s' & A2 & Hn & B3 & A3). exists s, s'.
  pose proof (answered_yields _ _ _ A1 B1) as Y1. split; [exact Y1|].
  split; [eapply reached_insert; [apply reached_open; exact Y1|exact (answered_yields _ _ _ A2 B2)]|].
  split; [exact Hn|]. exact (answered_yields _ _ _ A3 B3).
Qed.

(** A loop that comes round to the same state. *)
Lemma run_iterp {S R} (step : S -> prog (S + R)) w (I : S -> Prop) :
  (forall s, I s -> exists s', run (step s) w = (w, inl s') /\ I s') ->
  forall n s, I s -> exists s', run (iterp n step s) w = (w, inl s') /\ I s'.
Proof.
  intros H. induction n as [n IH|n IH|]; intros s Hs; cbn [iterp]; auto.
  - destruct (H s Hs) as (s1 & R1 & I1). rewrite run_bind, R1. destruct (IH s1 I1) as (s2 & R2 & I2).
    rewrite run_bind, R2. apply IH. exact I2.
  - destruct (IH s Hs) as (s2 & R2 & I2). rewrite run_bind, R2. apply IH. exact I2.
Qed.
Transparent loop.
Lemma run_loop_round {S R} (step : S -> prog (S + res R)) w (I : S -> Prop) s :
  (forall s, I s -> exists s', run (step s) w = (w, inl s') /\ I s') -> I s ->
  run (loop step s) w = (w, Er EDiverge).
Proof.
  intros H Hs. unfold loop. rewrite run_bind. destruct (run_iterp step w I H fuel s Hs) as (s' & E & _).
  rewrite E. reflexivity.
Qed.
Opaque loop.

(** C52 refuted for termination.  open() accepts files in which a chain of spill
    records leads back to itself; fetch() and insert() then go round in it for ever
    (EDiverge: more than 2^64 iterations). *)
Theorem C52_cyclic_chain_refuted : exists e w w' s k v,
  iter_ok e /\ run (store_open e) w = (w', Ok s) /\
  run (store_fetch e s k) w' = (w', Er EDiverge) /\
  run (store_insert e s k v) w' = (w', Er EDiverge).
Proof.
  assert (X : match run (store_open sample_env) cyclic_files with
    | (w', Ok s) =>
      let kh := st_kh s in let h := hash (e_hasher sample_env) (kh_salt kh) [1; 2] in
      match run (bk_read (fresh sample_env (kh_block_size kh)) FKey ((0 + 1) * kh_block_size kh)) w',
            run (bk_read (fresh sample_env (kh_block_size kh)) FDat 100) w' with
      | (w1, Ok b), (w2, Ok b') => w1 = w' /\ w2 = w' /\
        st_ec s = None /\ pool_find (st_p1 s) [1; 2] = None /\ pool_find (st_p0 s) [1; 2] = None /\
        bucket_index h (st_buckets s) (st_modulus s) = 0 /\ cache_find (st_c1 s) 0 = None /\
        run (fetch_step sample_env kh h [1; 2] b) w' = (w', inl b') /\
        run (fetch_step sample_env kh h [1; 2] b') w' = (w', inl b') /\
        run (exists_step sample_env kh h [1; 2] b) w' = (w', inl b') /\
        run (exists_step sample_env kh h [1; 2] b') w' = (w', inl b')
      | _, _ => False end
    | _ => False end) by (vm_compute; repeat split).
  destruct (run (store_open sample_env) cyclic_files) as [w' [s|er]] eqn:Eo; [|contradiction]. cbv zeta in X.
  destruct (run (bk_read _ FKey _) w') as [w1 [b|]] eqn:Eb; [|contradiction].
  destruct (run (bk_read _ FDat _) w') as [w2 [b'|]] eqn:Eb'; [|contradiction].
  destruct X as (-> & -> & X1 & X2 & X3 & X4 & X5 & F1 & F2 & G1 & G2).
  exists sample_env, cyclic_files, w', s, [1; 2], [5]. split; [exact sample_env_ok|]. split; [exact Eo|].
  split.
  - unfold store_fetch. rewrite X1, X2, X3. cbv zeta. rewrite X4, X5. rewrite (run_ebind_ok _ _ _ _ _ Eb).
    unfold fetch_bucket. apply (run_loop_round _ _ (fun x => x = b \/ x = b')); [|left; reflexivity].
    intros x [-> | ->]; exists b'; auto.
  - unfold store_insert. rewrite X1, X2, X3. cbn [blen length orb N.of_nat Pos.of_succ_nat].
    replace ((blen [5] =? 0) || (4294967295 <? blen [5])) with false by reflexivity.
    cbv zeta. rewrite X4, X5.
    assert (R : run (b0 <- bk_read (fresh sample_env (kh_block_size (st_kh s))) FKey ((0 + 1) * kh_block_size (st_kh s));;
       exists_bucket sample_env (st_kh s) (hash (e_hasher sample_env) (kh_salt (st_kh s)) [1; 2]) [1; 2] b0) w' = (w', Er EDiverge)).
    { rewrite (run_ebind_ok _ _ _ _ _ Eb). unfold exists_bucket.
      apply (run_loop_round _ _ (fun x => x = b \/ x = b')); [|left; reflexivity].
      intros x [-> | ->]; exists b'; auto. }
    unfold ebind at 1. rewrite run_bind, R. reflexivity.
Qed.

(** A log file with a valid header and one record: a bucket of ten entries, where
    the block has room for five. *)
Definition bad_log_files : world :=
  match sample_files with
  | World (Some d) (Some k) _ =>
    World (Some d) (Some k)
      (Some (enc_log_header (commit_log_header sample_env (dec_key_header k (blen k)) (blen k) (blen d)) ++
             wr64 0 ++ wr16 10 ++ wr48 0 ++ zeros 180))
  | w => w
  end.

(** C52 refuted for open().  Recovery copies as many entries as a record of the log
    file claims, past the end of the block. *)
Theorem C52_recover_overflow_refuted : exists e w,
  iter_ok e /\ snd (run (store_open e) w) = Er EUB.
Proof. exists sample_env, bad_log_files. split; [exact sample_env_ok|]. vm_compute. reflexivity. Qed.

Print Assumptions C52_in_bounds_partial.
Print Assumptions C52_checks_change_nothing.
Print Assumptions C52_cyclic_chain_refuted.
Print Assumptions C52_recover_overflow_refuted.
