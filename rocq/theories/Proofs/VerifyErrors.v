(** verify() changes no file and never reports a duplicate value. *)
From Verif Require Import Model.Bytes Model.Err Model.Field Model.Format Model.IO Model.BulkIO
  Model.Bucket Model.Pool Model.Recover Model.Create Model.Store Model.Verify
  Proofs.BytesFacts Proofs.IOFacts.

(** What a program may return, when it changes no file. *)
Definition gives {A} (R : A -> Prop) (p : prog A) : Prop :=
  forall w, fst (run p w) = w /\ R (snd (run p w)).
Definition unique {A} (r : res A) : Prop := r <> Er duplicate_value.
(** A loop step. *)
Definition stepped {S A} (r : S + res A) : Prop := match r with inl _ => True | inr x => unique x end.

Lemma gives_ret {A} (R : A -> Prop) a : R a -> gives R (Ret a).
Proof. intros H w. split; [reflexivity|exact H]. Qed.
Lemma gives_bind {A B} (R : A -> Prop) (R' : B -> Prop) (p : prog A) f :
  gives R p -> (forall a, R a -> gives R' (f a)) -> gives R' (bind p f).
Proof.
  intros Hp Hf w. rewrite run_bind. destruct (Hp w) as (H1 & H2). destruct (run p w) as [w' a]. cbn [fst snd] in *.
  subst w'. apply Hf. exact H2.
Qed.
Lemma gives_ebind {A B} (p : prog (res A)) (f : A -> prog (res B)) :
  gives unique p -> (forall a, gives unique (f a)) -> gives unique (ebind p f).
Proof.
  intros Hp Hf. apply (gives_bind unique); auto. intros [a|er] H; [apply Hf|]. apply gives_ret.
  intros X. apply H. injection X as ->. reflexivity.
Qed.
Lemma gives_iterp {S A} (step : S -> prog (S + res A)) : (forall s, gives stepped (step s)) ->
  forall p s, gives stepped (iterp p step s).
Proof.
  intros Hs. induction p as [p IH|p IH|]; intros s; cbn [iterp]; [| |apply Hs].
  - apply (gives_bind stepped); [apply Hs|]. intros [s'|x] Hx; [|apply gives_ret; exact Hx].
    apply (gives_bind stepped); [apply IH|]. intros [s2|x] H2; [apply IH|apply gives_ret; exact H2].
  - apply (gives_bind stepped); [apply IH|]. intros [s2|x] H2; [apply IH|apply gives_ret; exact H2].
Qed.
Lemma gives_loop {S A} (step : S -> prog (S + res A)) s : (forall s, gives stepped (step s)) -> gives unique (loop step s).
Proof.
  intros Hs. unfold loop. generalize fuel. intros fl. apply (gives_bind stepped); [apply gives_iterp; exact Hs|].
  intros [s'|x] H; apply gives_ret; [discriminate|exact H].
Qed.

Opaque loop.

Lemma gives_read f o n : gives unique (p_read f o n).
Proof.
  intros w. unfold p_read, do_data. cbn [run exec]. destruct (wget w f) as [c|]; [destruct (_ || _)|]; split; try reflexivity; discriminate.
Qed.
Lemma gives_open f : gives unique (p_open f).
Proof. intros w. unfold p_open, do_unit. cbn [run exec]. destruct (wget w f) as [c|]; split; try reflexivity; discriminate. Qed.
Lemma gives_size f : gives unique (p_size f).
Proof. intros w. unfold p_size, do_num. cbn [run exec]. destruct (wget w f) as [c|]; split; try reflexivity; discriminate. Qed.
Lemma gives_bk_read x f o : gives unique (bk_read x f o).
Proof. unfold bk_read. apply gives_ebind; [apply gives_read|]. intros. destruct (_ <? _); apply gives_ret; discriminate. Qed.
Lemma gives_br_prepare r n : gives unique (br_prepare r n).
Proof.
  unfold br_prepare. apply gives_ebind; [|intros; apply gives_ret; discriminate].
  destruct (_ <? _); [|apply gives_ret; discriminate]. destruct (_ <? _); [apply gives_ret; discriminate|].
  apply gives_ebind; [apply gives_read|intros; apply gives_ret; discriminate].
Qed.

Lemma stepped_er {S A B} (er : err) : unique (@Er A er) -> @stepped S B (inr (Er er)).
Proof. intros H X. apply H. injection X as ->. reflexivity. Qed.
Lemma unique_er {A B} (er : err) : unique (@Er A er) -> unique (@Er B er).
Proof. intros H X. apply H. injection X as ->. reflexivity. Qed.
Ltac given := first [exact I | discriminate |
  match goal with H : unique (Er ?er) |- _ => first [exact (stepped_er er H) | exact (unique_er er H)] end].
Ltac ret := cbv beta zeta; apply gives_ret; given.

Lemma gives_bk_read_bulk b r : gives (fun a => unique (snd a)) (bk_read_bulk b r).
Proof.
  unfold bk_read_bulk. apply (gives_bind unique); [apply gives_br_prepare|]. intros [[is r']|er] H.
  - apply (gives_bind unique); [apply gives_br_prepare|]. intros [[is2 r2]|er] H2.
    + destruct (_ <? _); apply gives_ret; discriminate.
    + apply gives_ret. intros X. apply H2. injection X as ->. reflexivity.
  - apply gives_ret. intros X. apply H. injection X as ->. reflexivity.
Qed.

Lemma gives_vfind e bs h o b : gives unique (vfind e bs h o b).
Proof.
  apply gives_loop. intros b'. unfold vfind_step. destruct (_ <? _); [ret|]. cbv zeta.
  destruct (vfind_scan _ _ _ _ _); [ret|]. destruct (_ =? 0); [ret|].
  apply (gives_bind unique); [apply gives_bk_read|]. intros [b1|er] H; [ret|]. destruct er; ret.
Qed.

Lemma gives_vn_record e kh st : gives stepped (vn_record e kh st).
Proof.
  destruct st as [v r]. unfold vn_record. cbv zeta. destruct (br_eof r); [ret|].
  apply (gives_bind unique); [apply gives_br_prepare|]. intros [[is r1]|er] H; [|ret].
  destruct (0 <? _).
  - apply (gives_bind unique); [apply gives_br_prepare|]. intros [[is2 r2]|er] H2; [|ret].
    apply (gives_bind unique); [apply gives_bk_read|]. intros [b|er] H3; [|ret].
    apply (gives_bind unique); [apply gives_vfind|]. intros [b2|er] H4; ret.
  - apply (gives_bind unique); [apply gives_br_prepare|]. intros [[is2 r2]|er] H2.
    + destruct (negb _); [ret|]. apply (gives_bind (fun a => unique (snd a))); [apply gives_bk_read_bulk|].
      intros [b [r3|er]] H3; cbn [snd] in H3; [ret|]. destruct er; ret.
    + destruct er; ret.
Qed.

Lemma gives_vn_entries e kh fuel b i : gives unique (vn_entries e kh fuel b i).
Proof.
  revert i. induction fuel as [|fuel IH]; intros i; cbn [vn_entries]; [ret|].
  apply (gives_bind unique); [apply gives_read|]. intros [d|er] H.
  - cbv zeta. destruct (negb _); [ret|]. destruct (negb _); [ret|]. apply IH.
  - destruct er; ret.
Qed.

Lemma gives_verify_normal e kh n : gives unique (verify_normal e kh n).
Proof.
  unfold verify_normal. cbv zeta. apply gives_ebind; [apply gives_loop; intros; apply gives_vn_record|].
  intros v. apply gives_loop. intros [i v']. unfold vn_bucket_step. destruct (_ <? _); [|ret].
  apply (gives_bind unique); [apply gives_bk_read|]. intros [b|er] H; [|ret].
  apply (gives_bind unique); [|intros [[ns v2]|er] H2; ret].
  apply gives_loop. intros [[b' ns] v2]. unfold vn_chain_step. cbv zeta.
  apply (gives_bind unique); [apply gives_vn_entries|]. intros [u|er] H2; [|ret].
  destruct (_ =? 0); [ret|]. apply (gives_bind unique); [apply gives_bk_read|]. intros [b2|er] H3; ret.
Qed.

Lemma gives_vf_count e bs fuel buf i tmp v : gives unique (vf_count e bs fuel buf i tmp v).
Proof.
  revert i tmp v. induction fuel as [|fuel IH]; intros i tmp v; cbn [vf_count]; [ret|]. cbv zeta.
  apply gives_ebind.
  - apply gives_loop. intros [[[[sp nk] ns] t] v']. unfold vf_count_step. destruct (_ =? 0); [ret|].
    apply (gives_bind unique); [apply gives_bk_read|]. intros [b|er] H; [ret|]. destruct er; ret.
  - intros [[[nk ns] t] v']. apply gives_ebind; [apply IH|]. intros [[l t'] v2]. ret.
Qed.

Lemma gives_verify_fast e kh n buf : gives unique (verify_fast e kh n buf).
Proof.
  unfold verify_fast. cbv zeta. destruct (_ <? _); [ret|]. apply gives_loop. intros [[b0 tmp] v]. unfold vf_pass. cbv zeta.
  destruct (_ <? _); [|ret]. apply (gives_bind unique); [apply gives_read|]. intros [bb|er] H; [|ret].
  apply (gives_bind unique); [apply gives_vf_count|]. intros [[[nk t] v2]|er] H2; [|ret].
  apply (gives_bind unique).
  - apply gives_loop. intros [[nk' v3] r]. unfold vf_record. cbv zeta. destruct (br_eof r); [ret|].
    apply (gives_bind unique); [apply gives_br_prepare|]. intros [[is r1]|er] H3; [|destruct er; ret].
    destruct (0 <? _).
    + apply (gives_bind unique); [apply gives_br_prepare|]. intros [[is2 r2]|er] H4; [|destruct er; ret].
      destruct (_ || _); [ret|]. apply (gives_bind unique); [apply gives_vfind|]. intros [u|er] H5; [|ret].
      destruct (_ =? 0); ret.
    + apply (gives_bind unique); [apply gives_br_prepare|]. intros [[is2 r2]|er] H4; [|destruct er; ret].
      destruct (negb _); [ret|].
      apply (gives_bind unique); [apply gives_br_prepare|]. intros [[is3 r3]|er] H5; [|destruct er; ret].
      ret.
  - intros [[nk' v3]|er] H3; [|ret]. destruct (forallb _ _); ret.
Qed.

Lemma gives_lift {A} (r : res A) : unique r -> gives unique (plift r).
Proof. apply gives_ret. Qed.

Lemma gives_verify e buf : gives unique (verify e buf).
Proof.
  unfold verify. apply gives_ebind; [apply gives_open|intros _]. apply gives_ebind; [apply gives_open|intros _].
  apply gives_ebind; [unfold read_dat_header; apply gives_ebind; [apply gives_read|intros; ret]|intros dh].
  apply gives_ebind; [apply gives_lift|intros _].
  { unfold verify_dat. repeat (destruct (_ : bool); [discriminate|]). all: discriminate. }
  apply gives_ebind; [|intros kh].
  { unfold read_key_header. apply gives_ebind; [apply gives_read|intros]. apply gives_ebind; [apply gives_size|intros; ret]. }
  assert (K : unique (verify_key (e_hasher e) kh)).
  { unfold verify_key. repeat (destruct (_ : bool); [discriminate|]). all: discriminate. }
  apply gives_ebind; [apply gives_lift; exact K|intros _].
  apply gives_ebind; [apply gives_lift|intros _].
  { unfold verify_dat_key, rbind. destruct (verify_key _ _) as [u|er]; [|exact K].
    repeat (destruct (_ : bool); [discriminate|]). all: discriminate. }
  apply gives_ebind; [apply gives_size|intros ks]. apply gives_ebind; [apply gives_size|intros ds].
  destruct (verify_choose_normal _ _ _ _); [apply gives_verify_normal|apply gives_verify_fast].
Qed.
