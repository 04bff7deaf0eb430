(** What a call reports when a file operation failed. *)
From Verif Require Import Model.Bytes Model.Err Model.Field Model.Format Model.IO
  Model.BulkIO Model.Bucket Model.Pool Model.Recover Model.Create Model.Store Model.Visit Model.Verify
  Model.Rekey Model.Crash SpecErr SpecHeard.

(** Every end satisfies [Q]. *)
Inductive sure {A} (Q : A -> Prop) : prog A -> Prop :=
| su_ret a : Q a -> sure Q (Ret a)
| su_do o k : (forall r, sure Q (k r)) -> sure Q (Do o k).
(** Every end after a failure with the error [n] satisfies [F n]. *)
Inductive heard {A} (F : N -> A -> Prop) : prog A -> Prop :=
| hd_ret a : heard F (Ret a)
| hd_do o k : (forall n, sure (F n) (k (RErr (EIO n)))) -> (forall r, heard F (k r)) -> heard F (Do o k).

Lemma sure_end {A} (Q : A -> Prop) p a : sure Q p -> may_end p a -> Q a.
Proof.
  intros H M. induction M as [a|o k n d a M IH|o k e a He M IH]; inversion H as [? X|? ? X]; subst.
  - exact X.
  - apply IH, X.
  - apply IH, X.
Qed.
Lemma heard_end {A} (F : N -> A -> Prop) n p a : heard F p -> ends_failing n p a -> F n a.
Proof.
  intros H M. induction M as [o k a M|o k m d a M IH|o k e a He M IH]; inversion H as [|? ? X Y]; subst.
  - exact (sure_end _ _ _ (X n) M).
  - apply IH, Y.
  - apply IH, Y.
Qed.

Lemma sure_bind {A B} (Q : A -> Prop) (Q' : B -> Prop) p f :
  sure Q p -> (forall a, Q a -> sure Q' (f a)) -> sure Q' (bind p f).
Proof. intros H Hf. induction H as [a Ha|o k Hk IH]; cbn [bind]; [apply Hf, Ha|constructor; exact IH]. Qed.
Lemma sure_weaken {A} (Q Q' : A -> Prop) p : sure Q p -> (forall a, Q a -> Q' a) -> sure Q' p.
Proof. intros H Hq. induction H; constructor; auto. Qed.
Lemma sure_any {A} (p : prog A) : sure (fun _ => True) p.
Proof. induction p; constructor; auto. Qed.
Lemma h_bind {A B} (F : N -> A -> Prop) (G : N -> B -> Prop) p f :
  heard F p -> (forall n a, F n a -> sure (G n) (f a)) -> (forall a, heard G (f a)) -> heard G (bind p f).
Proof.
  intros H Hs Hf. induction H as [a|o k Hk Hr IH]; cbn [bind]; [apply Hf|]. constructor; [|exact IH].
  intros n. eapply sure_bind; [apply Hk|]. intros a Ha. apply Hs, Ha.
Qed.
Lemma h_weaken {A} (F G : N -> A -> Prop) p : heard F p -> (forall n a, F n a -> G n a) -> heard G p.
Proof.
  intros H Hq. induction H as [a|o k Hk Hr IH]; constructor; [|exact IH].
  intros n. eapply sure_weaken; [apply Hk|]. intros a. apply Hq.
Qed.

Definition ferr (E : N -> err -> Prop) {A} (n : N) (a : res A) : Prop :=
  match a with Ok _ => False | Er e => E n e end.
Definition same (n : N) (e : err) : Prop := e = EIO n.
Definition some (n : N) (e : err) : Prop := True.
Definition fstep {S R} (F : N -> R -> Prop) (n : N) (x : S + R) : Prop :=
  match x with inl _ => False | inr r => F n r end.
Notation hs p := (heard (ferr same) p).

Lemma h_some {A} (p : prog (res A)) : hs p -> heard (ferr some) p.
Proof. intros H. eapply h_weaken; [exact H|]. intros n [a|e] X; [exact X|exact I]. Qed.

Lemma h_ebind E {A B} (p : prog (res A)) (f : A -> prog (res B)) :
  heard (ferr E) p -> (forall a, heard (ferr E) (f a)) -> heard (ferr E) (ebind p f).
Proof.
  intros H Hf. unfold ebind. eapply h_bind; [exact H| |].
  - intros n [a|e] X; [destruct X|]. constructor. exact X.
  - intros [a|e]; [apply Hf|constructor].
Qed.
Lemma h_bind0 {A B} (G : N -> B -> Prop) (p : prog (res A)) (f : res A -> prog B) :
  hs p -> (forall n, sure (G n) (f (Er (EIO n)))) -> (forall a, heard G (f a)) -> heard G (bind p f).
Proof.
  intros H Hs Hf. eapply h_bind; [exact H| |exact Hf]. intros n [a|e] X; [destruct X|].
  cbn [ferr] in X. unfold same in X. rewrite X. apply Hs.
Qed.
Lemma h_iterp {S R} (F : N -> R -> Prop) (step : S -> prog (S + R)) m :
  (forall s, heard (fstep F) (step s)) -> forall s, heard (fstep F) (iterp m step s).
Proof.
  intros Hs.
  assert (T : forall (p : prog (S + R)) (f : S -> prog (S + R)), heard (fstep F) p -> (forall s, heard (fstep F) (f s)) ->
    heard (fstep F) (bind p (fun x => match x with inl s => f s | inr r => Ret (inr r) end))).
  { intros p f Hp Hf. eapply h_bind; [exact Hp| |].
    - intros n [x|x] X; [destruct X|]. constructor. exact X.
    - intros [x|x]; [apply Hf|constructor]. }
  induction m as [m IH|m IH|]; intros s; cbn [iterp].
  - apply T; [apply Hs|]. intros x. apply T; [apply IH|]. intros y. apply IH.
  - apply T; [apply IH|]. intros x. apply IH.
  - apply Hs.
Qed.
Lemma h_loop {S R} (F : N -> res R -> Prop) (step : S -> prog (S + res R)) s :
  (forall s, heard (fstep F) (step s)) -> heard F (loop step s).
Proof.
  intros Hs. unfold loop. eapply h_bind; [apply (h_iterp F), Hs| |].
  - intros n [x|x] X; [destruct X|]. constructor. exact X.
  - intros [x|x]; constructor.
Qed.
Opaque loop.

Lemma h_unit o : hs (do_unit o).
Proof. constructor; [intros n; constructor; reflexivity|]. intros [e|n d]; constructor. Qed.
Lemma h_num o : hs (do_num o).
Proof. constructor; [intros n; constructor; reflexivity|]. intros [e|n d]; constructor. Qed.
Lemma h_data o : hs (do_data o).
Proof. constructor; [intros n; constructor; reflexivity|]. intros [e|n d]; constructor. Qed.

Ltac h1 := first
  [ apply h_unit | apply h_num | apply h_data | apply hd_ret
  | apply h_ebind; [|intros]
  | match goal with
    | |- heard _ (if ?b then _ else _) => destruct b
    | |- heard _ (match ?a with Ok _ => _ | Er _ => _ end) => destruct a
    | |- heard _ (match ?a with ENoEnt => _ | _ => _ end) => destruct a
    | |- heard _ (match ?a with short_read => _ | _ => _ end) => destruct a
    | |- heard _ (let '(_, _) := ?a in _) => destruct a
    end
  | progress cbv beta iota zeta ].
Ltac hr := intros ?n; cbv beta iota; constructor; reflexivity.

Lemma h_br_prepare r n : hs (br_prepare r n).
Proof. unfold br_prepare, pfail, pret. repeat h1. Qed.
Lemma h_bw_flush w : hs (bw_flush w).
Proof. unfold bw_flush, pret. repeat h1. Qed.
Lemma h_bw_put w d : hs (bw_put w d).
Proof. unfold bw_put, pret. repeat first [apply h_bw_flush|h1]. Qed.
Lemma h_maybe_spill b w : hs (maybe_spill b w).
Proof. unfold maybe_spill, pfail, pret. repeat first [apply h_bw_put|h1]. Qed.
Lemma h_bk_write b f ap o : hs (bk_write b f ap o).
Proof. apply h_unit. Qed.
Lemma h_bk_read p f o : hs (bk_read p f o).
Proof. unfold bk_read, pfail, pret. cbv zeta. repeat h1. Qed.
Lemma h_bk_read_bulk b r : heard (fun n x => snd x = Er (EIO n)) (bk_read_bulk b r).
Proof.
  unfold bk_read_bulk. apply h_bind0; [apply h_br_prepare|hr|]. intros [[is r1]|e]; [|constructor].
  cbv zeta. apply h_bind0; [apply h_br_prepare|hr|]. intros [[is2 r2]|e]; [|constructor].
  destruct (_ <? _); constructor.
Qed.
Lemma h_dh : hs read_dat_header.
Proof. unfold read_dat_header, pret. repeat h1. Qed.
Lemma h_kh : hs read_key_header.
Proof. unfold read_key_header, pret. repeat h1. Qed.
Lemma h_lh : hs read_log_header.
Proof. unfold read_log_header, pret. repeat h1. Qed.

(** create() *)
Lemma sure_create_fail n a b c e : sure (ferr some n) (create_fail a b c e).
Proof.
  unfold create_fail. do 3 (eapply sure_bind; [apply sure_any|intros _ _]). constructor. exact I.
Qed.
Lemma heard_create_fail a b c e : heard (ferr some) (create_fail a b c e).
Proof.
  generalize (fun n => sure_create_fail n a b c e). generalize (create_fail a b c e) as p. intros p H.
  induction p as [r|o k IH]; constructor.
  - intros n. specialize (H n). inversion H as [|? ? X]; subst. apply X.
  - intros r. apply IH. intros n. specialize (H n). inversion H as [|? ? X]; subst. apply X.
Qed.
Lemma h_create e a : heard (ferr some) (create e a).
Proof.
  unfold create, pfail. do 4 (destruct (_ : bool); [constructor|]).
  apply h_bind0; [apply h_unit|intros; apply sure_create_fail|]. intros [u|er]; [|apply heard_create_fail].
  apply h_bind0; [apply h_unit|intros; apply sure_create_fail|]. intros [u2|er]; [|apply heard_create_fail].
  apply h_bind0; [apply h_unit|intros; apply sure_create_fail|]. intros [u3|er]; [|apply heard_create_fail].
  apply h_bind0; [|intros; apply sure_create_fail|].
  { unfold create_fill, write_key_header, pfail. destruct (lf_field _); [|h1]. repeat first [apply h_bk_write|h1]. }
  intros [u4|er]; [constructor|]. destruct er; try apply heard_create_fail. constructor.
Qed.

(** recover() and open() *)
Lemma h_clear_log : hs recover_clear_log.
Proof. unfold recover_clear_log. repeat h1. Qed.
Lemma h_recover e : heard (ferr some) (recover e).
Proof.
  unfold recover, plift, pfail, pret. apply h_ebind; [apply h_some, h_unit|intros ?].
  apply h_ebind; [apply h_some, h_num|intros ?].
  apply h_ebind; [apply h_some, h_dh|intros ?]. apply h_ebind; [constructor|intros ?].
  apply h_ebind; [apply h_some, h_unit|intros ?]. apply h_ebind; [apply h_some, h_num|intros ?].
  destruct (_ <=? _).
  { apply h_some. h1; [|h1; [h1|h1]]. unfold erase_file. apply h_bind0; [apply h_unit|hr|]. intros [u|er]; [constructor|].
    destruct er; constructor. }
  apply h_bind0; [apply h_unit|intros n; constructor; exact I|]. intros [u|er]; [|destruct er; constructor].
  apply h_ebind; [apply h_some, h_num|intros ?].
  apply h_bind0; [apply h_lh|intros n; constructor; exact I|]. intros [lh|er].
  2:{ destruct er; try apply hd_ret. apply h_some, h_clear_log. }
  apply h_ebind; [constructor|intros ?]. apply h_ebind.
  2:{ intros ?. apply h_ebind; [apply h_some; unfold recover_trunc_files; repeat h1|intros ?; apply h_some, h_clear_log]. }
  destruct (_ =? 0); [constructor|]. unfold recover_replay, plift. apply h_ebind; [apply h_some, h_kh|intros ?].
  do 3 (apply h_ebind; [constructor|intros ?]). cbv zeta.
  apply h_loop. intros [b r]. unfold recover_step. destruct (br_eof r); [constructor|].
  apply h_bind0; [apply h_br_prepare|intros n; constructor; exact I|]. intros [[is r1]|er].
  2:{ destruct er; constructor. }
  cbv zeta. eapply h_bind; [apply h_bk_read_bulk| |].
  - intros n [b2 x] X. cbn [snd] in X. rewrite X. destruct (_ && _); [constructor; exact I|].
    destruct (_ <? _); [constructor; exact I|]. eapply sure_bind; [apply sure_any|]. intros [w|w] _; constructor; exact I.
  - intros [b2 x].
    match goal with |- heard _ (match x with Ok _ => ?W | Er _ => _ end) => assert (HW : heard (fstep (ferr some)) W) end.
    { destruct (_ && _); [constructor|]. destruct (_ <? _); [constructor|].
      apply h_bind0; [apply h_bk_write|intros n; destruct x; constructor; exact I|].
      intros [w|w]; destruct x; constructor. }
    destruct x as [r2|er]; [exact HW|]. destruct er; first [exact HW|constructor].
Qed.
Lemma h_open e : heard (ferr some) (store_open e).
Proof.
  unfold store_open, plift, pfail, pret. apply h_ebind; [apply h_recover|intros ?]. apply h_some.
  do 3 (h1; [h1|]). h1; [apply h_dh|]. h1; [h1|]. h1; [apply h_kh|]. repeat h1.
Qed.

(** fetch, insert, flush, close *)
Lemma h_fetch_bucket e kh h key b : hs (fetch_bucket e kh h key b).
Proof.
  unfold fetch_bucket. apply h_loop. intros b'. unfold fetch_step. cbv zeta.
  apply h_bind0; [|hr|].
  { assert (S : forall n i, hs (fetch_scan n (kh_key_size kh) h key b' i)).
    { induction n as [|n IH]; intros i; cbn [fetch_scan]; [constructor|]. cbv zeta.
      destruct (negb _); [constructor|]. h1; [h1|]. destruct (beq _ _); [constructor|apply IH]. }
    apply S. }
  intros [[v|]|er]; [constructor| |constructor]. destruct (_ =? 0); [constructor|].
  apply h_bind0; [apply h_bk_read|hr|]. intros [b2|er]; constructor.
Qed.
Lemma h_fetch e s key : hs (store_fetch e s key).
Proof.
  unfold store_fetch, pret. destruct (st_ec s); [constructor|]. cbv zeta. destruct (pool_find _ _); [constructor|].
  destruct (pool_find _ _); [constructor|]. destruct (cache_find _ _); [apply h_fetch_bucket|].
  h1; [apply h_bk_read|apply h_fetch_bucket].
Qed.
Lemma h_exists_bucket e kh h key b : hs (exists_bucket e kh h key b).
Proof.
  unfold exists_bucket. apply h_loop. intros b'. unfold exists_step. cbv zeta.
  apply h_bind0; [|hr|].
  { assert (S : forall n i, hs (exists_scan n (kh_key_size kh) h key b' i)).
    { induction n as [|n IH]; intros i; cbn [exists_scan]; [constructor|]. cbv zeta.
      destruct (negb _); [constructor|]. h1; [h1|]. destruct (beq _ _); [constructor|apply IH]. }
    apply S. }
  intros [[|]|er]; [constructor| |constructor]. destruct (_ =? 0); [constructor|].
  apply h_bind0; [apply h_bk_read|hr|]. intros [b2|er]; constructor.
Qed.
Lemma h_insert e s key data : hs (store_insert e s key data).
Proof.
  unfold store_insert, pret, pfail. destruct (st_ec s); [constructor|]. destruct (_ || _); [constructor|]. cbv zeta.
  destruct (pool_find (st_p1 s) key); [constructor|]. destruct (pool_find (st_p0 s) key); [constructor|].
  h1.
  - destruct (cache_find _ _); [apply h_exists_bucket|]. h1; [apply h_bk_read|]. apply h_exists_bucket.
  - destruct a; constructor.
Qed.

Lemma h_load e kh n c0 c1 : hs (load e kh n c0 c1).
Proof.
  unfold load, pret. destruct (cache_find c1 n); [constructor|]. destruct (cache_find c0 n); [cbv zeta; constructor|].
  h1; [apply h_bk_read|]. cbv zeta. constructor.
Qed.
Lemma h_split_spill n n2 bu m tmp : forall i b1 b2 w, hs (split_spill n n2 bu m tmp i b1 b2 w).
Proof.
  induction n as [|n IH]; intros i b1 b2 w; cbn [split_spill]; [constructor|]. cbv zeta. unfold plift.
  destruct (_ =? n2).
  - h1; [apply h_maybe_spill|]. destruct a as [b w']. h1; [h1|]. apply IH.
  - h1; [apply h_maybe_spill|]. destruct a as [b w']. h1; [h1|]. apply IH.
Qed.
Lemma h_split e kh b1 b2 n2 bu m w : hs (Store.split e kh b1 b2 n2 bu m w).
Proof.
  unfold Store.split, plift, pret. destruct (_ =? 0); [constructor|]. h1; [h1|].
  destruct a as [c1 c2]. cbv zeta. destruct (_ =? 0); [constructor|]. apply h_loop.
  intros [[[sp d1] d2] w']. unfold split_step. apply h_bind0; [|hr|].
  - h1; [destruct (_ <? _); [apply h_bw_flush|constructor]|]. h1; [apply h_bk_read|].
    h1; [apply h_split_spill|]. destruct a1 as [[e1 e2] w2]. constructor.
  - intros [[[[sp2 e1] e2] w2]|er]; [destruct (_ =? 0)|]; constructor.
Qed.
Lemma h_commit e s : hs (commit e s).
Proof.
  unfold commit. cbv zeta. h1; [unfold commit_begin; repeat h1|]. h1.
  { unfold commit_data. h1; [h1|]. cbv zeta. h1.
    - assert (R : forall q w, hs (commit_records q w)).
      { induction q as [|x q IH]; intros w; cbn [commit_records]; [constructor|]. cbv zeta.
        h1; [apply h_bw_put|]. h1; [apply IH|]. destruct a2. constructor. }
      apply R.
    - destruct a1 as [q w]. h1; [|h1; [apply h_bw_flush|constructor]].
      assert (R : forall q st, hs (commit_inserts e (st_kh s) (st_thresh s) q st)).
      { clear q w. induction q as [|x q IH]; intros st; cbn [commit_inserts]; [constructor|].
        h1; [|apply IH]. unfold commit_insert. destruct x as [x off]. h1.
        - unfold commit_split. cbv zeta. destruct (_ <=? _); [|constructor].
          h1; [apply h_load|]. destruct a1 as [[b1 c0] c1]. h1; [apply h_split|].
          destruct a1 as [[b2 b3] w]. constructor.
        - cbv zeta. h1; [apply h_load|]. destruct a2 as [[b c0] c1]. h1; [apply h_maybe_spill|].
          destruct a2 as [b2 w]. unfold plift. h1; [h1|]. constructor. }
      apply R. }
  h1.
  { unfold commit_log. h1; [h1|]. cbv zeta. h1; [|h1; [apply h_bw_flush|h1]].
    generalize (e_iter e (cs_c0 a0)) as q. intros q.
    generalize (bw_make FLog true a1 logWriteSize) as w.
    induction q as [|x q IH]; intros w; cbn [commit_log_records]; [constructor|].
    h1; [apply h_bw_put|]. apply IH. }
  h1.
  { generalize (e_iter e (cs_c1 a0)) as q. induction q as [|[n p] q IH]; cbn [commit_key]; [constructor|].
    h1; [apply h_bk_write|apply IH]. }
  h1; [unfold commit_end; repeat h1|]. constructor.
Qed.
Lemma h_flush e s : heard (fun n s' => st_ec s' = Some (EIO n)) (store_flush e s).
Proof.
  unfold store_flush. destruct (pool_is_empty _); [constructor|]. destruct (st_ec s); [constructor|].
  apply h_bind0; [apply h_commit|hr|]. intros [s'|er]; constructor.
Qed.
Lemma h_close e s : hs (store_close e s).
Proof.
  unfold store_close. eapply h_bind; [apply h_flush| |].
  - intros n s' X. rewrite X. constructor. reflexivity.
  - intros s'. destruct (st_ec s'); [constructor|apply h_unit].
Qed.

(** visit() *)
Lemma h_visit cb :
  heard (fun n r => exists t, r = Ok (t, Er (EIO n)) \/ r = Ok (t, Er EThrow)) (visit cb).
Proof.
  unfold visit, plift. apply h_bind0.
  { h1; [h1|]. h1; [apply h_dh|]. h1; [h1|]. h1; [h1|]. constructor. }
  { intros n. constructor. exists []. left. reflexivity. }
  intros [[ks fs]|er]; [|constructor]. cbv zeta.
  apply h_loop. intros [t r]. unfold visit_step. destruct (br_eof r); [constructor|].
  apply h_bind0; [apply h_br_prepare|intros n; constructor; exists t; left; reflexivity|]. intros [[is r1]|er]; [|constructor].
  cbv zeta. destruct (0 <? _).
  - apply h_bind0; [apply h_br_prepare|intros n; constructor; exists t; right; reflexivity|].
    intros [[is2 r2]|er]; [|constructor]. destruct (cb _ _ _); constructor.
  - apply h_bind0; [apply h_br_prepare|intros n; constructor; exists t; left; reflexivity|].
    intros [[is2 r2]|er]; [|constructor].
    apply h_bind0; [apply h_br_prepare|intros n; constructor; exists t; left; reflexivity|].
    intros [[is3 r3]|er]; constructor.
Qed.

(** rekey() *)
Lemma h_rekey e a : hs (rekey e a).
Proof.
  unfold rekey, pfail. h1.
  { unfold rekey_start, plift, pfail. h1; [h1|]. h1; [apply h_dh|]. h1; [h1|].
    h1; [h1|]. apply h_bind0; [apply h_unit|hr|].
    intros [u|er]; [constructor|]. destruct er; constructor. }
  destruct a0 as [dh ds]. destruct (rekey_lf _) as [lf|]; [|h1]. destruct (ra_buckets a) as [bu|]; [|h1].
  destruct (_ =? 0); [h1|]. cbv zeta. h1; [unfold rekey_create; repeat h1|]. unfold rekey_build. cbv zeta.
  h1.
  - apply h_loop. intros [[b0 t] dw]. unfold rekey_pass. destruct (_ <=? b0); [constructor|]. cbv zeta.
    apply h_bind0; [|hr|].
    + apply h_loop. intros [[[t2 buf] dw2] r]. unfold rekey_step. destruct (br_eof r); [constructor|]. cbv zeta.
      apply h_bind0; [apply h_br_prepare|hr|]. intros [[is r1]|er]; [|constructor].
      destruct (0 <? _).
      * apply h_bind0; [apply h_br_prepare|hr|]. intros [[is2 r2]|er]; [|constructor].
        destruct (_ || _); [constructor|].
        apply h_bind0; [|hr|].
        { h1; [apply h_maybe_spill|]. destruct a1 as [b w]. unfold plift. h1; [h1|]. constructor. }
        intros [[b w]|er]; constructor.
      * apply h_bind0; [apply h_br_prepare|hr|]. intros [[is2 r2]|er]; [|constructor].
        apply h_bind0; [apply h_br_prepare|hr|]. intros [[is3 r3]|er]; constructor.
    + intros [[[t2 buf] dw2]|er]; [|constructor].
      apply h_bind0; [apply h_unit|hr|]. intros [u|er]; constructor.
  - destruct a1 as [t dw]. h1; [apply h_bw_flush|]. h1; [h1|]. constructor.
Qed.

(** verify() *)
Lemma h_vfind e bs h off b : hs (vfind e bs h off b).
Proof.
  unfold vfind. apply h_loop. intros b'. unfold vfind_step. destruct (_ <? _); [constructor|]. cbv zeta.
  destruct (vfind_scan _ _ _ _ _); [constructor|]. destruct (_ =? 0); [constructor|].
  apply h_bind0; [apply h_bk_read|hr|]. intros [b2|er]; [constructor|]. destruct er; constructor.
Qed.
Lemma h_vn_entries e kh b n : forall i, hs (vn_entries e kh n b i).
Proof.
  induction n as [|n IH]; intros i; cbn [vn_entries]; [constructor|]. cbv zeta. unfold pfail.
  apply h_bind0; [apply h_data|hr|]. intros [d|er]; [|destruct er; constructor].
  destruct (negb _); [constructor|]. destruct (negb _); [constructor|apply IH].
Qed.
Lemma h_verify e buf : hs (verify e buf).
Proof.
  unfold verify, plift. h1; [h1|]. h1; [h1|]. h1; [apply h_dh|]. h1; [h1|].
  h1; [apply h_kh|]. h1; [h1|]. h1; [h1|].
  h1; [h1|]. h1; [h1|]. destruct (verify_choose_normal _ _ _ _).
  - unfold verify_normal. cbv zeta. h1.
    + apply h_loop. intros [v r]. unfold vn_record. destruct (br_eof r); [constructor|]. cbv zeta.
      apply h_bind0; [apply h_br_prepare|hr|]. intros [[is r1]|er]; [|constructor].
      destruct (0 <? _).
      * apply h_bind0; [apply h_br_prepare|hr|]. intros [[is2 r2]|er]; [|constructor].
        apply h_bind0; [apply h_bk_read|hr|]. intros [b|er]; [|constructor].
        apply h_bind0; [apply h_vfind|hr|]. intros [u|er]; constructor.
      * apply h_bind0; [apply h_br_prepare|hr|]. intros [[is2 r2]|er]; [|destruct er; constructor].
        destruct (negb _); [constructor|].
        eapply h_bind; [apply h_bk_read_bulk| |].
        { intros n [b x] X. cbn [snd] in X. rewrite X. constructor. reflexivity. }
        intros [b [r3|er]]; [constructor|]. destruct er; constructor.
    + apply h_loop. intros [n v]. unfold vn_bucket_step. destruct (_ <? _); [|constructor].
      apply h_bind0; [apply h_bk_read|hr|]. intros [b|er]; [|constructor].
      apply h_bind0; [|hr|].
      * apply h_loop. intros [[b' ns] v']. unfold vn_chain_step. cbv zeta.
        apply h_bind0; [apply h_vn_entries|hr|]. intros [u|er]; [|constructor].
        destruct (_ =? 0); [constructor|].
        apply h_bind0; [apply h_bk_read|hr|]. intros [b2|er]; constructor.
      * intros [[ns v']|er]; constructor.
  - unfold verify_fast. destruct (_ <? _); [constructor|]. cbv zeta.
    apply h_loop. intros [[b0 tmp] v]. unfold vf_pass. cbv zeta. destruct (_ <? _); [|constructor].
    apply h_bind0; [apply h_data|hr|]. intros [bf|er]; [|constructor].
    apply h_bind0; [|hr|].
    { assert (C : forall n bf i tmp v, hs (vf_count e (kh_block_size a3) n bf i tmp v)).
      { induction n as [|n IH]; intros bf' i tmp' v'; cbn [vf_count]; [constructor|]. cbv zeta. apply h_ebind; [|intros x].
        - apply h_loop. intros [[[[sp nk] ns] tm] v2]. unfold vf_count_step. destruct (_ =? 0); [constructor|].
          apply h_bind0; [apply h_bk_read|hr|]. intros [b2|er]; [constructor|]. destruct er; constructor.
        - destruct x as [[[nk ns] tm] v2]. apply h_ebind; [apply IH|intros x]. destruct x as [[q tm2] v3]. constructor. }
      apply C. }
    intros [[[nk tm] v']|er]; [|constructor].
    apply h_bind0; [|hr|].
    { apply h_loop. intros [[nk' v2] r]. unfold vf_record. destruct (br_eof r); [constructor|]. cbv zeta.
      apply h_bind0; [apply h_br_prepare|hr|]. intros [[is r1]|er]; [|destruct er; constructor].
      destruct (0 <? _).
      - apply h_bind0; [apply h_br_prepare|hr|]. intros [[is2 r2]|er]; [|destruct er; constructor].
        destruct (_ || _); [constructor|].
        apply h_bind0; [apply h_vfind|hr|]. intros [u|er]; [|constructor].
        destruct (_ =? 0); constructor.
      - apply h_bind0; [apply h_br_prepare|hr|]. intros [[is2 r2]|er]; [|destruct er; constructor].
        destruct (negb _); [constructor|].
        apply h_bind0; [apply h_br_prepare|hr|]. intros [[is3 r3]|er]; [constructor|]. destruct er; constructor. }
    intros [[nk' v2]|er]; [|constructor]. destruct (forallb _ _); constructor.
Qed.

Lemma fails_too_some {A} (p : prog (res A)) : heard (ferr some) p -> fails_too p.
Proof. intros H n a M. pose proof (heard_end _ _ _ _ H M) as X. destruct a as [a|e]; [destruct X|exists e; reflexivity]. Qed.
Lemma hands_on_same {A} (p : prog (res A)) : hs p -> hands_on p.
Proof.
  intros H n a M. pose proof (heard_end _ _ _ _ H M) as X. destruct a as [a|e]; [destruct X|].
  cbn [ferr] in X. unfold same in X. rewrite X. reflexivity.
Qed.

(** Executions with failures. *)
Lemma exec_answer o w : match snd (exec o w) with ROk _ _ => True | RErr e => of_file e end.
Proof.
  destruct o as [f|f|f|f|f off len|f ap off d|f|f len]; cbn [exec]; destruct (wget w f); cbn [snd of_file]; try exact I.
  - destruct (_ || _); exact I.
  - destruct (_ && _); exact I.
Qed.
Lemma fsteps_ends ord {A} (p q : prog A) w S w' S' : fsteps ord p w S q w' S' ->
  forall a, q = Ret a -> may_end p a.
Proof.
  induction 1 as [p w S|o k w S q w' S' H IH|o k w S n w1 q w' S' F H IH]; intros a E.
  - rewrite E. constructor.
  - specialize (IH a E). pose proof (exec_answer o w) as X. destruct (snd (exec o w)) as [e|m d].
    + exact (me_err _ _ e _ X IH).
    + exact (me_ok _ _ m d _ IH).
  - exact (me_err _ _ (EIO n) _ Logic.I (IH a E)).
Qed.
Lemma fsteps_ends_failing ord {A} n (p q : prog A) w S w1 S1 : fsteps ord p w S q w1 S1 ->
  forall o k a, q = Do o k -> may_end (k (RErr (EIO n))) a -> ends_failing n p a.
Proof.
  induction 1 as [p w S|o k w S q w' S' H IH|o k w S m w1 q w' S' F H IH]; intros o0 k0 a E M.
  - rewrite E. exact (ef_this _ _ _ _ M).
  - specialize (IH _ _ _ E M). pose proof (exec_answer o w) as X. destruct (snd (exec o w)) as [e|i d].
    + exact (ef_err _ _ _ e _ X IH).
    + exact (ef_ok _ _ _ i d _ IH).
  - exact (ef_err _ _ _ (EIO m) _ Logic.I (IH _ _ _ E M)).
Qed.
Lemma run_ends_failing {A} ord (p : prog A) w S o k w1 S1 n w2 S2 a w' S' :
  fsteps ord p w S (Do o k) w1 S1 -> fsteps ord (k (RErr (EIO n))) w2 S2 (Ret a) w' S' -> ends_failing n p a.
Proof.
  intros H H2. exact (fsteps_ends_failing _ _ _ _ _ _ _ _ H o k a eq_refl (fsteps_ends _ _ _ _ _ _ _ H2 a eq_refl)).
Qed.

(** A call that did not fail met no failure. *)
Definition honest {A} (p : prog A) (a : A) : Prop := forall n, ~ ends_failing n p a.
Lemma honest_run ord {A} (p q : prog A) w S w' S' : fsteps ord p w S q w' S' ->
  forall a, q = Ret a -> honest p a -> run p w = (w', a).
Proof.
  induction 1 as [p w S|o k w S q w' S' H IH|o k w S n w1 q w' S' F H IH]; intros a E N.
  - rewrite E. reflexivity.
  - cbn [run]. destruct (exec o w) as [v r] eqn:X. cbn [fst snd] in *. apply (IH a E).
    intros n M. pose proof (exec_answer o w) as Y. rewrite X in Y. cbn [snd] in Y. apply (N n).
    destruct r as [e|m d]; [exact (ef_err _ _ _ e _ Y M)|exact (ef_ok _ _ _ m d _ M)].
  - destruct (N n). exact (ef_this _ _ _ _ (fsteps_ends _ _ _ _ _ _ _ H a E)).
Qed.
Lemma fails_too_run ord {A} (p : prog (res A)) w S a w' S' :
  fails_too p -> fsteps ord p w S (Ret (Ok a)) w' S' -> run p w = (w', Ok a).
Proof.
  intros H R. apply (honest_run _ _ _ _ _ _ _ R (Ok a) eq_refl). intros n M. destruct (H n _ M) as [e E]. discriminate.
Qed.
Lemma hands_on_fails {A} (p : prog (res A)) : hands_on p -> fails_too p.
Proof. intros H n a M. exists (EIO n). exact (H n a M). Qed.
Lemma hands_on_run ord {A} (p : prog (res A)) w S e w' S' :
  hands_on p -> fsteps ord p w S (Ret (Er e)) w' S' -> (forall n, e <> EIO n) -> run p w = (w', Er e).
Proof.
  intros H R N. apply (honest_run _ _ _ _ _ _ _ R (Er e) eq_refl). intros n M. apply (N n).
  pose proof (H n _ M) as X. congruence.
Qed.
