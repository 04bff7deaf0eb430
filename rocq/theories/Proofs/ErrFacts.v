(** The errors that the functions may report. *)
From Verif Require Import Model.Bytes Model.Err Model.Field Model.Format Model.IO
  Model.BulkIO Model.Bucket Model.Pool Model.Recover Model.Create Model.Store Model.Visit Model.Verify
  Model.Rekey SpecErr.

Definition answer_ok (r : rsp) : Prop := match r with ROk _ _ => True | RErr e => of_file e end.

(** All ends of a program satisfy [Q]. *)
Inductive rets {A} (Q : A -> Prop) : prog A -> Prop :=
| rt_ret a : Q a -> rets Q (Ret a)
| rt_do o k : (forall r, answer_ok r -> rets Q (k r)) -> rets Q (Do o k).

Lemma rets_end {A} (Q : A -> Prop) p a : rets Q p -> may_end p a -> Q a.
Proof.
  intros H M. induction M as [a|o k n d a M IH|o k e a He M IH]; inversion H as [? X|? ? X]; subst.
  - exact X.
  - apply IH, X. exact I.
  - apply IH, X. exact He.
Qed.

Lemma rets_bind {A B} (Q : A -> Prop) (Q' : B -> Prop) p f :
  rets Q p -> (forall a, Q a -> rets Q' (f a)) -> rets Q' (bind p f).
Proof. intros H Hf. induction H as [a Ha|o k Hk IH]; cbn [bind]; [apply Hf, Ha|constructor; exact IH]. Qed.

Lemma rets_weaken {A} (Q Q' : A -> Prop) p : rets Q p -> (forall a, Q a -> Q' a) -> rets Q' p.
Proof. intros H Hq. induction H; constructor; auto. Qed.

Lemma rets_iterp {S R} (Q : R -> Prop) (step : S -> prog (S + R)) n :
  (forall s, rets (fun r => match r with inl _ => True | inr x => Q x end) (step s)) ->
  forall s, rets (fun r => match r with inl _ => True | inr x => Q x end) (iterp n step s).
Proof.
  intros Hs. induction n as [n IH|n IH|]; intros s; cbn [iterp].
  - eapply rets_bind; [apply Hs|]. intros [x|x] Hx; [|constructor; exact Hx].
    eapply rets_bind; [apply IH|]. intros [y|y] Hy; [apply IH|constructor; exact Hy].
  - eapply rets_bind; [apply IH|]. intros [x|x] Hx; [apply IH|constructor; exact Hx].
  - apply Hs.
Qed.

(** The errors are those of files, no codes at all, or in [l]. *)
Definition good (l : list err) (e : err) : Prop := of_file e \/ not_code e \/ In e l.
Definition rgood (l : list err) {A} (r : res A) : Prop :=
  match r with Ok _ => True | Er e => good l e end.
Notation errs l p := (rets (rgood l) p).

Lemma errs_only {A} l (p : prog (res A)) : errs l p -> only l p.
Proof.
  intros H e [M N]. pose proof (rets_end _ _ _ H M) as G. cbn [rgood] in G.
  destruct G as [G|[G|G]]; auto. contradiction.
Qed.

Lemma rets_loop {S R} (Q : res R -> Prop) (step : S -> prog (S + res R)) s :
  Q (Er EDiverge) ->
  (forall s, rets (fun r => match r with inl _ => True | inr x => Q x end) (step s)) ->
  rets Q (loop step s).
Proof.
  intros Hd Hs. unfold loop. eapply rets_bind; [apply (rets_iterp Q), Hs|].
  intros [x|x] Hx; constructor; [exact Hd|exact Hx].
Qed.

Lemma errs_loop l {S R} (step : S -> prog (S + res R)) s :
  (forall s, rets (fun r => match r with inl _ => True | inr x => rgood l x end) (step s)) ->
  errs l (loop step s).
Proof.
  intros Hs. apply rets_loop; [right; left; exact I|exact Hs].
Qed.
Opaque loop.

Lemma errs_ebind l {A B} (p : prog (res A)) (f : A -> prog (res B)) :
  errs l p -> (forall a, errs l (f a)) -> errs l (ebind p f).
Proof.
  intros H Hf. unfold ebind. eapply rets_bind; [exact H|]. intros [a|e] G; [apply Hf|constructor; exact G].
Qed.

Lemma errs_bind l {A B} (Q : B -> Prop) (p : prog (res A)) (f : res A -> prog B) :
  errs l p -> (forall a, rgood l a -> rets Q (f a)) -> rets Q (bind p f).
Proof. intros H Hf. eapply rets_bind; [exact H|exact Hf]. Qed.

Lemma errs_incl l l' {A} (p : prog (res A)) : incl l l' -> errs l p -> errs l' p.
Proof.
  intros Hi H. eapply rets_weaken; [exact H|]. intros [a|e] G; [exact I|]. cbn [rgood] in *.
  destruct G as [G|[G|G]]; [left; exact G|right; left; exact G|right; right; apply Hi, G].
Qed.

Lemma errs_unit l o : errs l (do_unit o).
Proof. constructor. intros [e|n d] H; constructor; [left; exact H|exact I]. Qed.
Lemma errs_num l o : errs l (do_num o).
Proof. constructor. intros [e|n d] H; constructor; [left; exact H|exact I]. Qed.
Lemma errs_data l o : errs l (do_data o).
Proof. constructor. intros [e|n d] H; constructor; [left; exact H|exact I]. Qed.
Lemma errs_pret l {A} (a : A) : errs l (pret a).
Proof. constructor. exact I. Qed.
Lemma errs_ret l {A} (r : res A) : rgood l r -> errs l (Ret r).
Proof. constructor. exact H. Qed.

Ltac good_tac :=
  first [ exact I | assumption
        | left; exact I | right; left; exact I
        | right; right; cbn; tauto ].

Ltac ec := first
  [ apply errs_unit | apply errs_num | apply errs_data | apply errs_pret
  | apply errs_ebind; [|intros]
  | constructor; solve [good_tac | cbn [rgood]; good_tac]
  | match goal with
    | |- rets _ (if ?b then _ else _) => destruct b
    | |- rets _ (match ?a with Ok _ => _ | Er _ => _ end) => destruct a
    | |- rets _ (let '(_, _) := ?a in _) => destruct a
    end
  | progress cbv beta iota zeta ].

Lemma errs_br_prepare l r n : errs l (br_prepare r n).
Proof. unfold br_prepare. unfold pfail. repeat ec. Qed.
Lemma errs_bw_flush l w : errs l (bw_flush w).
Proof. unfold bw_flush. repeat ec. Qed.
Lemma errs_bw_put l w d : errs l (bw_put w d).
Proof. unfold bw_put. repeat first [apply errs_bw_flush|ec]. Qed.
Lemma errs_bk_insert l b o s h : rgood l (bk_insert b o s h).
Proof. unfold bk_insert. destruct (_ <? _); [cbn; good_tac|]. destruct (_ || _); cbn; good_tac. Qed.
Lemma errs_maybe_spill l b w : errs l (maybe_spill b w).
Proof. unfold maybe_spill, pfail. repeat first [apply errs_bw_put|ec]. Qed.
Lemma errs_bk_write l b f ap o : errs l (bk_write b f ap o).
Proof. apply errs_unit. Qed.
Lemma errs_bk_read l p f o : In invalid_bucket_size l -> errs l (bk_read p f o).
Proof. intros H. unfold bk_read, pfail. cbv zeta. ec; [ec|]. destruct (_ <? _); [|ec]. constructor. right. right. exact H. Qed.
Lemma errs_bk_read_bulk l b r : rets (fun x => rgood l (snd x)) (bk_read_bulk b r).
Proof.
  unfold bk_read_bulk. eapply rets_bind; [apply (errs_br_prepare l)|]. intros [[is r1]|e] G; [|constructor; exact G].
  cbv zeta. eapply rets_bind; [apply (errs_br_prepare l)|]. intros [[is2 r2]|e] G2; [|constructor; exact G2].
  destruct (_ <? _); constructor; cbn; good_tac.
Qed.

(** Headers *)
Lemma rgood_verify_dat l h : incl dat_hdr_errs l -> rgood l (verify_dat h).
Proof.
  intros H. assert (G : forall e, In e dat_hdr_errs -> rgood l (@Er unit e)) by (intros e He; right; right; apply H, He).
  unfold verify_dat. repeat (match goal with |- rgood _ (if ?b then _ else _) => destruct b; [apply G; cbn; tauto|] end).
  exact I.
Qed.
Lemma rgood_verify_key l H0 h : incl key_hdr_errs l -> rgood l (verify_key H0 h).
Proof.
  intros H. assert (G : forall e, In e key_hdr_errs -> rgood l (@Er unit e)) by (intros e He; right; right; apply H, He).
  unfold verify_key. repeat (match goal with |- rgood _ (if ?b then _ else _) => destruct b; [apply G; cbn; tauto|] end).
  exact I.
Qed.
Lemma rgood_verify_log l H0 h : incl log_hdr_errs l -> rgood l (verify_log H0 h).
Proof.
  intros H. assert (G : forall e, In e log_hdr_errs -> rgood l (@Er unit e)) by (intros e He; right; right; apply H, He).
  unfold verify_log. repeat (match goal with |- rgood _ (if ?b then _ else _) => destruct b; [apply G; cbn; tauto|] end).
  exact I.
Qed.
Lemma rgood_rbind l {A B} (r : res A) (f : A -> res B) : rgood l r -> (forall a, rgood l (f a)) -> rgood l (rbind r f).
Proof. destruct r; cbn; auto. Qed.
Lemma rgood_dat_key l H0 d k : incl key_hdr_errs l -> incl dat_key_errs l -> rgood l (verify_dat_key H0 d k).
Proof.
  intros H H'. assert (G : forall e, In e dat_key_errs -> rgood l (@Er unit e)) by (intros e He; right; right; apply H', He).
  unfold verify_dat_key. apply rgood_rbind; [apply rgood_verify_key, H|]. intros _.
  repeat (match goal with |- rgood _ (if ?b then _ else _) => destruct b; [apply G; cbn; tauto|] end).
  exact I.
Qed.
(** pepper_mismatch is never reported: both peppers are checked before. *)
Lemma rgood_key_log l H0 k g : verify_key H0 k = Ok tt ->
  incl log_hdr_errs l -> incl key_log_errs l -> rgood l (verify_key_log H0 k g).
Proof.
  intros Hk H H'. assert (P : kh_pepper k = pepper H0 (kh_salt k)).
  { revert Hk. unfold verify_key.
    repeat (match goal with |- (if ?b then _ else _) = _ -> _ => destruct b eqn:?; [discriminate|] end).
    intros _. apply N.eqb_eq. match goal with X : negb (kh_pepper k =? _) = false |- _ => apply negb_false_iff in X; exact X end. }
 assert (G : forall e, In e key_log_errs -> rgood l (@Er unit e)) by (intros e He; right; right; apply H', He).
  unfold verify_key_log. pose proof (rgood_verify_log l H0 g H) as V.
  destruct (verify_log H0 g) as [u|er] eqn:El; cbn [rbind]; [|exact V].
  assert (Q : lh_pepper g = pepper H0 (lh_salt g)).
  { revert El. unfold verify_log.
    repeat (match goal with |- (if ?b then _ else _) = _ -> _ => destruct b eqn:?; [discriminate|] end).
    intros _. apply N.eqb_eq. match goal with X : negb (lh_pepper g =? _) = false |- _ => apply negb_false_iff in X; exact X end. }
  destruct (negb (kh_uid k =? _)); [apply G; cbn; tauto|].
  destruct (negb (kh_appnum k =? _)); [apply G; cbn; tauto|].
  destruct (negb (kh_key_size k =? _)); [apply G; cbn; tauto|].
  destruct (negb (kh_salt k =? _)) eqn:Es; [apply G; cbn; tauto|].
  destruct (negb (kh_pepper k =? _)) eqn:Ep.
  { exfalso. apply negb_false_iff, N.eqb_eq in Es. apply negb_true_iff, N.eqb_neq in Ep. apply Ep.
    rewrite P, Q, Es. reflexivity. }
  destruct (negb (kh_block_size k =? _)); [apply G; cbn; tauto|].
  exact I.
Qed.
Lemma errs_dh l : errs l read_dat_header.
Proof. unfold read_dat_header. repeat ec. Qed.
Lemma errs_kh l : errs l read_key_header.
Proof. unfold read_key_header. repeat ec. Qed.
Lemma errs_lh l : errs l read_log_header.
Proof. unfold read_log_header. repeat ec. Qed.

(** create() *)
Lemma errs_create_fail l a b c e : good l e -> errs l (create_fail a b c e).
Proof.
  intros H. unfold create_fail, erase_quiet, pfail.
  apply (rets_bind (fun _ => True)); [destruct a; [eapply rets_bind; [apply (errs_unit l)|]; intros; constructor; exact I|constructor; exact I]|intros _ _].
  apply (rets_bind (fun _ => True)); [destruct b; [eapply rets_bind; [apply (errs_unit l)|]; intros; constructor; exact I|constructor; exact I]|intros _ _].
  apply (rets_bind (fun _ => True)); [destruct c; [eapply rets_bind; [apply (errs_unit l)|]; intros; constructor; exact I|constructor; exact I]|intros _ _].
  constructor. exact H.
Qed.

Lemma errs_create e a : errs create_errs (create e a).
Proof.
  unfold create, pfail. do 4 (destruct (_ : bool); [constructor; cbn; good_tac|]).
  eapply errs_bind; [apply (errs_unit create_errs)|]. intros [u|er] G; [|apply errs_create_fail; exact G].
  eapply errs_bind; [apply (errs_unit create_errs)|]. intros [u2|er] G2; [|apply errs_create_fail; exact G2].
  eapply errs_bind; [apply (errs_unit create_errs)|]. intros [u3|er] G3; [|apply errs_create_fail; exact G3].
  apply (errs_bind create_errs).
  { unfold create_fill, write_key_header, pfail. destruct (lf_field _); [|ec]. repeat first [apply errs_bk_write|ec]. }
  intros [u4|er] G4; [apply errs_pret|]. destruct er; try (apply errs_create_fail; exact G4). constructor. cbn. good_tac.
Qed.

(** recover() and open() *)
Lemma errs_clear_log l : errs l recover_clear_log.
Proof. unfold recover_clear_log. repeat ec. Qed.

Lemma errs_recover e : errs recover_errs (recover e).
Proof.
  set (l := recover_errs).
  assert (D : incl dat_hdr_errs l) by (intros x Hx; unfold l, recover_errs; rewrite !in_app_iff; tauto).
  assert (K : incl key_hdr_errs l) by (intros x Hx; unfold l, recover_errs; rewrite !in_app_iff; tauto).
  assert (L : incl log_hdr_errs l) by (intros x Hx; unfold l, recover_errs; rewrite !in_app_iff; tauto).
  assert (KL : incl key_log_errs l) by (intros x Hx; unfold l, recover_errs; rewrite !in_app_iff; tauto).
  assert (DK : incl dat_key_errs l) by (intros x Hx; apply KL; unfold key_log_errs; apply in_or_app; left; exact Hx).
  assert (Sp : forall A, rgood l (@Er A invalid_log_spill)) by (intros A; right; right; cbn; tauto).
  assert (Ix : forall A, rgood l (@Er A invalid_log_index)) by (intros A; right; right; cbn; tauto).
  assert (Nk : forall A, rgood l (@Er A no_key_file)) by (intros A; right; right; cbn; tauto).
  unfold recover, plift, pfail. ec; [ec|]. ec; [ec|]. ec; [apply errs_dh|].
  ec; [apply errs_ret, rgood_verify_dat, D|]. ec; [ec|]. ec; [ec|].
  destruct (_ <=? _).
  { ec; [|ec; [ec|apply errs_ret, Nk]]. unfold erase_file. eapply errs_bind; [apply (errs_unit l)|].
    intros [u|er] G; [constructor; exact I|]. destruct er; constructor; try exact G; exact I. }
  eapply errs_bind; [apply (errs_unit l)|]. intros [u|er] G.
  2:{ destruct er; try (constructor; exact G). apply errs_pret. }
  ec; [ec|]. eapply errs_bind; [apply (errs_lh l)|]. intros [lh|er] G2.
  2:{ destruct er; try (constructor; exact G2). apply errs_clear_log. }
  ec; [apply errs_ret, rgood_verify_log, L|]. ec.
  { destruct (_ =? 0); [apply errs_pret|]. unfold recover_replay, plift. ec; [apply errs_kh|].
    unfold ebind at 1. cbn [bind]. pose proof (rgood_verify_key l (e_hasher e) a7 K) as Vk.
    destruct (verify_key (e_hasher e) a7) as [[]|er] eqn:Ek; [|constructor; exact Vk].
    ec; [apply errs_ret, rgood_dat_key; [exact K|exact DK]|].
    ec; [apply errs_ret, rgood_key_log; [exact Ek|exact L|exact KL]|]. cbv zeta.
    apply errs_loop. intros [b r]. unfold recover_step. destruct (br_eof r); [constructor; exact I|].
    eapply errs_bind; [apply (errs_br_prepare l)|]. intros [[is r1]|er] G3.
    2:{ destruct er; constructor; first [exact I|exact G3]. }
    cbv zeta. eapply rets_bind; [apply (errs_bk_read_bulk l)|]. intros [b2 x] G4. cbn [snd] in G4.
    assert (W : rets (fun r : (bucket * breader) + res unit => match r with inl _ => True | inr x => rgood l x end)
      (if negb (bk_spill b2 =? 0) && (a0 <? bk_spill b2 + bucket_size (kh_capacity a7))
       then Ret (inr (Er invalid_log_spill))
       else if kh_buckets a7 <? rd64 is then Ret (inr (Er invalid_log_index))
       else
        bind (bk_write b2 FKey false ((rd64 is + 1) * kh_block_size a7)) (fun w =>
        match x, w with
        | Er e, _ => Ret (inr (Er e))
        | Ok r, Ok _ => Ret (inl (b2, r))
        | Ok _, Er e => Ret (inr (Er e))
        end))).
    { destruct (_ && _); [constructor; apply Sp|]. destruct (_ <? _); [constructor; apply Ix|].
      eapply errs_bind; [apply (errs_bk_write l)|]. intros [w|er] Gw; destruct x; constructor; first [exact I|exact Gw|exact G4]. }
    destruct x as [r2|er]; [exact W|]. destruct er; first [exact W|constructor; first [exact I|exact G4]]. }
  ec; [|apply errs_clear_log]. unfold recover_trunc_files. repeat ec.
Qed.

(** short_key_file is never reported: the header is checked before. *)
Lemma errs_open e : errs recover_errs (store_open e).
Proof.
  set (l := recover_errs).
  assert (D : incl dat_hdr_errs l) by (intros x Hx; unfold l, recover_errs; rewrite !in_app_iff; tauto).
  assert (K : incl key_hdr_errs l) by (intros x Hx; unfold l, recover_errs; rewrite !in_app_iff; tauto).
  assert (KL : incl key_log_errs l) by (intros x Hx; unfold l, recover_errs; rewrite !in_app_iff; tauto).
  assert (DK : incl dat_key_errs l) by (intros x Hx; apply KL; unfold key_log_errs; apply in_or_app; left; exact Hx).
  unfold store_open, plift, pfail. ec; [apply errs_recover|]. do 3 (ec; [ec|]). ec; [apply errs_dh|].
  ec; [apply errs_ret, rgood_verify_dat, D|]. ec; [apply errs_kh|].
  unfold ebind. cbn [bind]. destruct (verify_key (e_hasher e) a5) as [[]|er] eqn:E.
  2:{ pose proof (rgood_verify_key l (e_hasher e) a5 K) as G. rewrite E in G. constructor. exact G. }
  cbn [bind]. destruct (verify_dat_key (e_hasher e) a3 a5) as [u|er] eqn:E2.
  2:{ pose proof (rgood_dat_key l (e_hasher e) a3 a5 K DK) as G. rewrite E2 in G. constructor. exact G. }
  cbv zeta. destruct (kh_buckets a5 <? 1) eqn:E3; [|apply errs_pret]. exfalso.
  revert E. unfold verify_key. rewrite E3.
  repeat (match goal with |- (if ?b then _ else _) = _ -> _ => destruct b; [discriminate|] end). discriminate.
Qed.

(** fetch, insert, flush *)
Lemma errs_fetch_bucket l e kh h key b : In invalid_bucket_size l -> In key_not_found l ->
  errs l (fetch_bucket e kh h key b).
Proof.
  intros H1 H2. unfold fetch_bucket. apply errs_loop. intros b'. unfold fetch_step. cbv zeta.
  assert (S : forall n i, errs l (fetch_scan n (kh_key_size kh) h key b' i)).
  { induction n as [|n IH]; intros i; cbn [fetch_scan]; [apply errs_pret|]. cbv zeta.
    destruct (negb _); [apply errs_pret|]. ec; [ec|]. destruct (beq _ _); [apply errs_pret|apply IH]. }
  eapply errs_bind; [apply S|]. intros [[v|]|er] G; [constructor; exact I| |constructor; exact G].
  destruct (_ =? 0); [constructor; right; right; exact H2|].
  eapply errs_bind; [apply (errs_bk_read l), H1|]. intros [b2|er] G2; constructor; [exact I|exact G2].
Qed.

Lemma errs_fetch e s key :
  errs (fetch_errs ++ match st_ec s with Some er => [er] | None => [] end) (store_fetch e s key).
Proof.
  unfold store_fetch. destruct (st_ec s) as [er|]; [constructor; right; right; cbn; tauto|].
  cbv zeta. destruct (pool_find _ _); [apply errs_pret|]. destruct (pool_find _ _); [apply errs_pret|].
  assert (H1 : In invalid_bucket_size (fetch_errs ++ [])) by (cbn; tauto).
  assert (H2 : In key_not_found (fetch_errs ++ [])) by (cbn; tauto).
  destruct (cache_find _ _); [apply errs_fetch_bucket; assumption|].
  ec; [apply errs_bk_read, H1|]. apply errs_fetch_bucket; assumption.
Qed.

Lemma errs_exists_bucket l e kh h key b : In invalid_bucket_size l -> errs l (exists_bucket e kh h key b).
Proof.
  intros H1. unfold exists_bucket. apply errs_loop. intros b'. unfold exists_step. cbv zeta.
  assert (S : forall n i, errs l (exists_scan n (kh_key_size kh) h key b' i)).
  { induction n as [|n IH]; intros i; cbn [exists_scan]; [apply errs_pret|]. cbv zeta.
    destruct (negb _); [apply errs_pret|]. ec; [ec|]. destruct (beq _ _); [apply errs_pret|apply IH]. }
  eapply errs_bind; [apply S|]. intros [[|]|er] G; [constructor; exact I| |constructor; exact G].
  destruct (_ =? 0); [constructor; exact I|].
  eapply errs_bind; [apply (errs_bk_read l), H1|]. intros [b2|er] G2; constructor; [exact I|exact G2].
Qed.

Lemma errs_insert e s key data :
  errs (insert_errs ++ match st_ec s with Some er => [er] | None => [] end) (store_insert e s key data).
Proof.
  unfold store_insert. destruct (st_ec s) as [er|]; [constructor; right; right; cbn; tauto|].
  destruct (_ || _); [constructor; right; left; exact I|]. cbv zeta.
  assert (H1 : In invalid_bucket_size (insert_errs ++ [])) by (cbn; tauto).
  assert (Hx : forall A, rgood (insert_errs ++ []) (@Er A key_exists)) by (intros A; right; right; cbn; tauto).
  destruct (pool_find (st_p1 s) key); [constructor; apply Hx|].
  destruct (pool_find (st_p0 s) key); [constructor; apply Hx|].
  ec.
  - destruct (cache_find _ _); [apply errs_exists_bucket; assumption|].
    ec; [apply errs_bk_read, H1|]. apply errs_exists_bucket; assumption.
  - destruct a; [constructor; apply Hx|apply errs_pret].
Qed.

Section Flush.
Let l := flush_errs.
Lemma ibs : In invalid_bucket_size l.
Proof. cbn. tauto. Qed.

Lemma errs_load e kh n c0 c1 : errs l (load e kh n c0 c1).
Proof.
  unfold load. destruct (cache_find c1 n); [apply errs_pret|]. destruct (cache_find c0 n); [cbv zeta; apply errs_pret|].
  ec; [apply errs_bk_read, ibs|]. cbv zeta. apply errs_pret.
Qed.

Lemma rgood_split_own n n2 bu m : forall b1 b2 i, rgood l (split_own n n2 bu m b1 b2 i).
Proof.
  induction n as [|n IH]; intros b1 b2 i; cbn [split_own]; [exact I|]. cbv zeta. destruct (_ =? n2); [|apply IH].
  apply rgood_rbind; [apply errs_bk_insert|]. intros a. apply IH.
Qed.

Lemma errs_split_spill n n2 bu m tmp : forall i b1 b2 w, errs l (split_spill n n2 bu m tmp i b1 b2 w).
Proof.
  induction n as [|n IH]; intros i b1 b2 w; cbn [split_spill]; [apply errs_pret|]. cbv zeta. unfold plift.
  destruct (_ =? n2).
  - ec; [apply errs_maybe_spill|]. destruct a as [b w']. ec; [apply errs_ret, errs_bk_insert|]. apply IH.
  - ec; [apply errs_maybe_spill|]. destruct a as [b w']. ec; [apply errs_ret, errs_bk_insert|]. apply IH.
Qed.

Lemma errs_split e kh b1 b2 n2 bu m w : errs l (Store.split e kh b1 b2 n2 bu m w).
Proof.
  unfold Store.split, plift. destruct (_ =? 0); [apply errs_pret|]. ec; [apply errs_ret, rgood_split_own|].
  destruct a as [c1 c2]. cbv zeta. destruct (_ =? 0); [apply errs_pret|]. apply errs_loop.
  intros [[[sp d1] d2] w']. unfold split_step. apply (errs_bind l).
  - ec; [destruct (_ <? _); [apply errs_bw_flush|apply errs_pret]|]. ec; [apply errs_bk_read, ibs|].
    ec; [apply errs_split_spill|]. destruct a1 as [[e1 e2] w2]. apply errs_pret.
  - intros [[[[sp2 e1] e2] w2]|er] G; [destruct (_ =? 0); constructor; exact I|constructor; exact G].
Qed.

Lemma errs_commit e s : errs l (commit e s).
Proof.
  unfold commit. cbv zeta. ec; [unfold commit_begin; repeat ec|]. ec.
  { unfold commit_data. ec; [ec|]. cbv zeta. ec.
    - assert (R : forall q w, errs l (commit_records q w)).
      { induction q as [|x q IH]; intros w; cbn [commit_records]; [apply errs_pret|]. cbv zeta.
        ec; [apply errs_bw_put|]. ec; [apply IH|]. destruct a2. apply errs_pret. }
      apply R.
    - destruct a1 as [q w]. ec; [|ec; [apply errs_bw_flush|apply errs_pret]].
      assert (R : forall q st, errs l (commit_inserts e (st_kh s) (st_thresh s) q st)).
      { clear q w. induction q as [|x q IH]; intros st; cbn [commit_inserts]; [apply errs_pret|].
        ec; [|apply IH]. unfold commit_insert. destruct x as [x off]. ec.
        - unfold commit_split. cbv zeta. destruct (_ <=? _); [|apply errs_pret].
          ec; [apply errs_load|]. destruct a1 as [[b1 c0] c1]. ec; [apply errs_split|].
          destruct a1 as [[b2 b3] w]. apply errs_pret.
        - cbv zeta. ec; [apply errs_load|]. destruct a2 as [[b c0] c1]. ec; [apply errs_maybe_spill|].
          destruct a2 as [b2 w]. unfold plift. ec; [apply errs_ret, errs_bk_insert|]. apply errs_pret. }
      apply R. }
  ec.
  { unfold commit_log. ec; [ec|]. cbv zeta. ec; [|ec; [apply errs_bw_flush|ec]].
    generalize (e_iter e (cs_c0 a0)) as q. intros q.
    generalize (bw_make FLog true a1 logWriteSize) as w.
    induction q as [|x q IH]; intros w; cbn [commit_log_records]; [apply errs_pret|].
    ec; [apply errs_bw_put|]. apply IH. }
  ec.
  { generalize (e_iter e (cs_c1 a0)) as q. induction q as [|[n p] q IH]; cbn [commit_key]; [apply errs_pret|].
    ec; [apply errs_bk_write|apply IH]. }
  ec; [unfold commit_end; repeat ec|]. apply errs_pret.
Qed.
End Flush.

Definition state_errs (s : store) : list err := match st_ec s with Some er => [er] | None => [] end.

Lemma rets_flush e s :
  rets (fun s' => match st_ec s' with Some er => good (flush_errs ++ state_errs s) er | None => True end)
    (store_flush e s).
Proof.
  unfold store_flush, state_errs. destruct (pool_is_empty _).
  - constructor. destruct (st_ec s); [right; right; cbn; tauto|exact I].
  - destruct (st_ec s) as [er|] eqn:E; [apply rt_ret; unfold store_failed; cbn [st_ec]; right; right; cbn; tauto|].
    apply (rets_bind (fun r => match r with Ok s' => st_ec s' = None | Er er => good (flush_errs ++ []) er end)).
    + assert (X : rets (fun r : res store => match r with Ok s' => st_ec s' = None | Er _ => True end) (commit e s)).
      { unfold commit. cbv zeta.
        assert (B : forall A B (p : prog (res A)) (f : A -> prog (res B)) Q, rets (fun _ => True) p ->
          (forall a, rets (fun r : res B => match r with Ok s' => Q s' | Er _ => True end) (f a)) ->
          rets (fun r : res B => match r with Ok s' => Q s' | Er _ => True end) (ebind p f)).
        { intros A B p f Q Hp Hf. unfold ebind. eapply rets_bind; [exact Hp|]. intros [a|er] _; [apply Hf|constructor; exact I]. }
        assert (T : forall A (p : prog A), rets (fun _ => True) p).
        { intros A p. induction p; constructor; auto. }
        do 5 (apply B; [apply T|intros]). constructor. reflexivity. }
      pose proof (errs_commit e s) as Y. clear E. revert X Y. generalize (commit e s) as p. intros p X Y.
      induction X as [r Hr|o k Hk IH]; inversion Y as [? Y1|? ? Y1]; subst; constructor.
      * destruct r; [exact Hr|exact Y1].
      * intros r Hr. apply IH; auto.
    + intros [s'|er] G; constructor; [rewrite G; exact I|exact G].
Qed.

(** visit() *)
Lemma visit_errs cb l : (forall t k v er, cb t k v = Some er -> In er l) -> incl dat_hdr_errs l ->
  rets (fun r => match r with Ok (_, x) => rgood l x | Er e => good l e end) (visit cb).
Proof.
  intros C D. unfold visit, plift.
  apply (errs_bind l).
  { ec; [ec|]. ec; [apply errs_dh|]. ec; [apply errs_ret, rgood_verify_dat, D|]. ec; [ec|]. apply errs_pret. }
  intros [[ks fs]|er] G; [|constructor; exact G].
  cbv zeta.
  assert (X : forall s, rets (fun r => match r with Ok (_, x) => rgood l x | Er e => good l e end) (loop (visit_step cb ks fs) s)).
  { intros s. apply rets_loop; [right; left; exact I|].
      intros [t r]. unfold visit_step. destruct (br_eof r); [constructor; exact I|].
      eapply errs_bind; [apply (errs_br_prepare l)|]. intros [[is r1]|er] G3; [|constructor; exact G3].
      cbv zeta. destruct (0 <? _).
      + eapply errs_bind; [apply (errs_br_prepare l)|]. intros [[is2 r2]|er] G4; [|constructor; cbn; good_tac].
        destruct (cb _ _ _) as [er|] eqn:E; constructor; [|exact I]. right. right. apply (C _ _ _ _ E).
      + eapply errs_bind; [apply (errs_br_prepare l)|]. intros [[is2 r2]|er] G4; [|constructor; first [exact G4|cbn; good_tac]].
        repeat first [ eapply errs_bind; [apply (errs_br_prepare l)|]; intros [[is3 r3]|er] G5; constructor; first [exact I|exact G5|cbn; good_tac]
                     | constructor; first [exact I|cbn; good_tac] ].
  }
  apply X.
Qed.

(** rekey() *)
Lemma errs_rekey e a : errs rekey_errs (rekey e a).
Proof.
  set (l := rekey_errs).
  assert (D : incl dat_hdr_errs l) by (intros x Hx; unfold l, rekey_errs; rewrite !in_app_iff; tauto).
  unfold rekey, pfail. ec.
  { unfold rekey_start, plift, pfail. ec; [ec|]. ec; [apply errs_dh|]. ec; [apply errs_ret, rgood_verify_dat, D|].
    ec; [ec|]. eapply errs_bind; [apply (errs_unit l)|].
    intros [u|er] G; [constructor; right; right; cbn; tauto|]. destruct er; try (constructor; exact G). apply errs_pret. }
  destruct a0 as [dh ds]. destruct (rekey_lf _) as [lf|]; [|ec]. destruct (ra_buckets a) as [bu|]; [|ec].
  destruct (_ =? 0); [ec|]. cbv zeta. ec; [unfold rekey_create; repeat ec|]. unfold rekey_build. cbv zeta.
  ec.
  - apply errs_loop. intros [[b0 t] dw]. unfold rekey_pass. destruct (_ <=? b0); [constructor; exact I|]. cbv zeta.
    apply (errs_bind l).
    + apply errs_loop. intros [[[t2 buf] dw2] r]. unfold rekey_step. destruct (br_eof r); [constructor; exact I|]. cbv zeta.
      eapply errs_bind; [apply (errs_br_prepare l)|]. intros [[is r1]|er] G; [|constructor; exact G].
      destruct (0 <? _).
      * eapply errs_bind; [apply (errs_br_prepare l)|]. intros [[is2 r2]|er] G2; [|constructor; exact G2].
        destruct (_ || _); [constructor; exact I|].
        apply (errs_bind l).
        { ec; [apply errs_maybe_spill|]. destruct a1 as [b w]. unfold plift. ec; [apply errs_ret, errs_bk_insert|]. apply errs_pret. }
        intros [[b w]|er] G3; constructor; [exact I|exact G3].
      * eapply errs_bind; [apply (errs_br_prepare l)|]. intros [[is2 r2]|er] G2; [|constructor; exact G2].
        eapply errs_bind; [apply (errs_br_prepare l)|]. intros [[is3 r3]|er] G3; constructor; [exact I|exact G3].
    + intros [[[t2 buf] dw2]|er] G; [|constructor; exact G].
      eapply errs_bind; [apply (errs_unit l)|]. intros [u|er] G2; constructor; [exact I|exact G2].
  - destruct a1 as [t dw]. ec; [apply errs_bw_flush|]. ec; [ec|]. apply errs_pret.
Qed.

(** verify() *)
Section Ver.
Let l := verify_errs.
Ltac inl := right; right; cbn; tauto.
Lemma ibv : In invalid_bucket_size l.
Proof. cbn. tauto. Qed.

Lemma errs_vfind e bs h off b : errs l (vfind e bs h off b).
Proof.
  unfold vfind. apply errs_loop. intros b'. unfold vfind_step. destruct (_ <? _); [constructor; cbn; good_tac|]. cbv zeta.
  destruct (vfind_scan _ _ _ _ _); [constructor; exact I|]. destruct (_ =? 0); [constructor; inl|].
  eapply errs_bind; [apply (errs_bk_read l), ibv|]. intros [b2|er] G; [constructor; exact I|].
  destruct er; constructor; first [exact G|inl].
Qed.

Lemma errs_vn_entries e kh b n : forall i, errs l (vn_entries e kh n b i).
Proof.
  induction n as [|n IH]; intros i; cbn [vn_entries]; [apply errs_pret|]. cbv zeta.
  eapply errs_bind; [apply (errs_data l)|]. intros [d|er] G; [|destruct er; constructor; first [exact G|inl]].
  destruct (negb _); [constructor; inl|]. destruct (negb _); [constructor; inl|apply IH].
Qed.

Lemma errs_verify e buf : errs l (verify e buf).
Proof.
  assert (D : incl dat_hdr_errs l) by (intros x Hx; unfold l, verify_errs; rewrite !in_app_iff; tauto).
  assert (K : incl key_hdr_errs l) by (intros x Hx; unfold l, verify_errs; rewrite !in_app_iff; tauto).
  assert (DK : incl dat_key_errs l) by (intros x Hx; unfold l, verify_errs; rewrite !in_app_iff; tauto).
  unfold verify, plift. ec; [ec|]. ec; [ec|]. ec; [apply errs_dh|]. ec; [apply errs_ret, rgood_verify_dat, D|].
  ec; [apply errs_kh|]. ec; [apply errs_ret, rgood_verify_key, K|]. ec; [apply errs_ret, rgood_dat_key; [exact K|exact DK]|].
  ec; [ec|]. ec; [ec|]. destruct (verify_choose_normal _ _ _ _).
  - unfold verify_normal. cbv zeta. ec.
    + apply errs_loop. intros [v r]. unfold vn_record. destruct (br_eof r); [constructor; exact I|]. cbv zeta.
      eapply errs_bind; [apply (errs_br_prepare l)|]. intros [[is r1]|er] G; [|constructor; exact G].
      destruct (0 <? _).
      * eapply errs_bind; [apply (errs_br_prepare l)|]. intros [[is2 r2]|er] G2; [|constructor; exact G2].
        eapply errs_bind; [apply (errs_bk_read l), ibv|]. intros [b|er] G3; [|constructor; exact G3].
        eapply errs_bind; [apply errs_vfind|]. intros [u|er] G4; constructor; [exact I|exact G4].
      * eapply errs_bind; [apply (errs_br_prepare l)|]. intros [[is2 r2]|er] G2; [|destruct er; constructor; first [exact G2|inl]].
        destruct (negb _); [constructor; inl|].
        eapply rets_bind; [apply (errs_bk_read_bulk l)|]. intros [b [r3|er]] G3; cbn [snd] in G3; [constructor; exact I|].
        destruct er; constructor; first [exact G3|inl].
    + apply errs_loop. intros [n v]. unfold vn_bucket_step. destruct (_ <? _); [|constructor; exact I].
      eapply errs_bind; [apply (errs_bk_read l), ibv|]. intros [b|er] G; [|constructor; exact G].
      apply (errs_bind l).
      * apply errs_loop. intros [[b' ns] v']. unfold vn_chain_step. cbv zeta.
        eapply errs_bind; [apply errs_vn_entries|]. intros [u|er] G2; [|constructor; exact G2].
        destruct (_ =? 0); [constructor; exact I|].
        eapply errs_bind; [apply (errs_bk_read l), ibv|]. intros [b2|er] G3; constructor; [exact I|exact G3].
      * intros [[ns v']|er] G2; constructor; [exact I|exact G2].
  - unfold verify_fast. destruct (_ <? _); [constructor; cbn; good_tac|]. cbv zeta.
    apply errs_loop. intros [[b0 tmp] v]. unfold vf_pass. cbv zeta. destruct (_ <? _); [|constructor; exact I].
    eapply errs_bind; [apply (errs_data l)|]. intros [bf|er] G; [|constructor; exact G].
    apply (errs_bind l).
    { assert (C : forall n bf i tmp v, errs l (vf_count e (kh_block_size a3) n bf i tmp v)).
      { induction n as [|n IH]; intros bf' i tmp' v'; cbn [vf_count]; [apply errs_pret|]. cbv zeta. apply errs_ebind; [|intros x].
        - apply errs_loop. intros [[[[sp nk] ns] tm] v2]. unfold vf_count_step. destruct (_ =? 0); [constructor; exact I|].
          eapply errs_bind; [apply (errs_bk_read l), ibv|]. intros [b2|er] G2; [constructor; exact I|].
          destruct er; constructor; first [exact G2|inl].
        - destruct x as [[[nk ns] tm] v2]. apply errs_ebind; [apply IH|intros x]. destruct x as [[q tm2] v3]. apply errs_pret. }
      apply C. }
    intros [[[nk tm] v']|er] G2; [|constructor; exact G2].
    apply (errs_bind l).
    { apply errs_loop. intros [[nk' v2] r]. unfold vf_record. destruct (br_eof r); [constructor; exact I|]. cbv zeta.
      eapply errs_bind; [apply (errs_br_prepare l)|]. intros [[is r1]|er] G3; [|destruct er; constructor; first [exact G3|inl]].
      destruct (0 <? _).
      - eapply errs_bind; [apply (errs_br_prepare l)|]. intros [[is2 r2]|er] G4; [|destruct er; constructor; first [exact G4|inl]].
        destruct (_ || _); [constructor; exact I|].
        eapply errs_bind; [apply errs_vfind|]. intros [u|er] G5; [|constructor; exact G5].
        destruct (_ =? 0); constructor; [inl|exact I].
      - eapply errs_bind; [apply (errs_br_prepare l)|]. intros [[is2 r2]|er] G4; [|destruct er; constructor; first [exact G4|inl]].
        destruct (negb _); [constructor; inl|].
        eapply errs_bind; [apply (errs_br_prepare l)|]. intros [[is3 r3]|er] G5; [constructor; exact I|].
        destruct er; constructor; first [exact G5|inl]. }
    intros [[nk' v2]|er] G3; [|constructor; exact G3]. destruct (forallb _ _); constructor; [exact I|inl].
Qed.
End Ver.

(** The state of a store holds only errors that a flush may have met. *)
Definition ec_ok (o : option err) : Prop :=
  match o with Some er => good flush_errs er | None => True end.

Lemma flush_keeps_ec e s s' : ec_ok (st_ec s) -> may_end (store_flush e s) s' -> ec_ok (st_ec s').
Proof.
  intros H M. pose proof (rets_end _ _ _ (rets_flush e s) M) as X. cbv beta in X. unfold ec_ok, state_errs in *.
  destruct (st_ec s') as [er|]; [|exact I]. destruct X as [X|[X|X]]; [left; exact X|right; left; exact X|].
  apply in_app_or in X as [X|X]; [right; right; exact X|]. destruct (st_ec s) as [er0|]; [|destruct X].
  destruct X as [<-|[]]. exact H.
Qed.

Lemma open_ec e s : may_end (store_open e) (Ok s) -> st_ec s = None.
Proof.
  assert (R : rets (fun r : res store => match r with Ok s => st_ec s = None | Er _ => True end) (store_open e)).
  { assert (B : forall A B (p : prog (res A)) (f : A -> prog (res B)) Q,
      (forall a, rets (fun r : res B => match r with Ok s' => Q s' | Er _ => True end) (f a)) ->
      rets (fun r : res B => match r with Ok s' => Q s' | Er _ => True end) (ebind p f)).
    { intros A B p f Q Hf. unfold ebind. eapply (rets_bind (fun _ => True)).
      - induction p; constructor; auto.
      - intros [a|er] _; [apply Hf|constructor; exact I]. }
    unfold store_open. do 9 (apply B; intros). cbv zeta. destruct (_ <? _); constructor; first [exact I|reflexivity]. }
  intros M. exact (rets_end _ _ _ R M).
Qed.

Lemma insert_ec e s k v s' : may_end (store_insert e s k v) (Ok s') -> st_ec s' = None.
Proof.
  assert (R : rets (fun r : res store => match r with Ok s => st_ec s = None | Er _ => True end) (store_insert e s k v)).
  { unfold store_insert. destruct (st_ec s); [constructor; exact I|]. destruct (_ || _); [constructor; exact I|].
    cbv zeta. destruct (pool_find (st_p1 s) k); [constructor; exact I|].
    destruct (pool_find (st_p0 s) k); [constructor; exact I|]. unfold ebind at 1.
    eapply (rets_bind (fun _ => True)).
    - match goal with |- rets _ ?p => generalize p end. intros p. induction p; constructor; auto.
    - intros [[|]|er] _; constructor; first [exact I|reflexivity]. }
  intros M. exact (rets_end _ _ _ R M).
Qed.

Lemma only_state l l' {A} s (p : prog (res A)) : incl flush_errs l' -> incl l l' -> ec_ok (st_ec s) ->
  errs (l ++ state_errs s) p -> only l' p.
Proof.
  intros Hf Hl Hs H. apply errs_only. eapply rets_weaken; [exact H|]. intros [a|er] G; [exact I|].
  cbn [rgood] in *. destruct G as [G|[G|G]]; [left; exact G|right; left; exact G|].
  apply in_app_or in G as [G|G]; [right; right; apply Hl, G|].
  unfold state_errs in G. unfold ec_ok in Hs. destruct (st_ec s) as [er0|]; [|destruct G].
  destruct G as [<-|[]]. destruct Hs as [Hs|[Hs|Hs]]; [left; exact Hs|right; left; exact Hs|right; right; apply Hf, Hs].
Qed.

Lemma fetch_only e s k : ec_ok (st_ec s) -> only fetch_errs (store_fetch e s k).
Proof.
  intros H. eapply only_state; [| |exact H|apply errs_fetch]; intros x Hx; cbn in *; tauto.
Qed.
Lemma insert_only e s k v : ec_ok (st_ec s) -> only insert_errs (store_insert e s k v).
Proof.
  intros H. eapply only_state; [| |exact H|apply errs_insert]; intros x Hx; cbn in *; tauto.
Qed.
Lemma close_only e s : ec_ok (st_ec s) -> only flush_errs (store_close e s).
Proof.
  intros H. eapply (only_state flush_errs); [intros x Hx; exact Hx|intros x Hx; exact Hx|exact H|].
  unfold store_close. eapply rets_bind; [apply rets_flush|]. intros s' G. cbv beta in G.
  destruct (st_ec s') as [er|]; [constructor; exact G|apply errs_unit].
Qed.

(** Feeding a program with answers. *)
Fixpoint feed {A} (p : prog A) (l : list rsp) : option A :=
  match p, l with
  | Ret a, [] => Some a
  | Do _ k, r :: l => feed (k r) l
  | _, _ => None
  end.
Definition answer_okb (r : rsp) : bool :=
  match r with
  | ROk _ _ => true
  | RErr e => match e with short_read | ENoEnt | EExist | EBadF | EIO _ | EAppend => true | _ => false end
  end.
Lemma feed_end {A} l : forall (p : prog A) a, forallb answer_okb l = true -> feed p l = Some a -> may_end p a.
Proof.
  induction l as [|r l IH]; intros [a'|o k] a Ho H; cbn [feed] in H; try discriminate.
  - injection H as ->. constructor.
  - cbn [forallb] in Ho. apply andb_prop in Ho as [Hr Ho]. destruct r as [e|n d].
    + apply me_err with (e := e); [|apply IH; assumption]. destruct e; try discriminate; exact I.
    + apply me_ok with (n := n) (d := d). apply IH; assumption.
Qed.
(** The error reported for the given answers. *)
Definition fed {A} (p : prog (res A)) (l : list rsp) : option err :=
  if forallb answer_okb l then match feed p l with Some (Er e) => Some e | _ => None end else None.
Lemma fed_reports {A} (p : prog (res A)) l e : fed p l = Some e -> ~ not_code e -> reports p e.
Proof.
  unfold fed. destruct (forallb answer_okb l) eqn:Ho; [|discriminate].
  destruct (feed p l) as [[a|e']|] eqn:E; try discriminate. intros H Hn. injection H as ->.
  split; [|exact Hn]. exact (feed_end l p _ Ho E).
Qed.

Lemma used_ec e s : used e s -> ec_ok (st_ec s).
Proof.
  intros H. induction H as [s M|s k v s' H IH M|s s' H IH M].
  - rewrite (open_ec _ _ M). exact I.
  - rewrite (insert_ec _ _ _ _ _ M). exact I.
  - exact (flush_keeps_ec _ _ _ IH M).
Qed.

Lemma visit_only cb l t er : (forall t k v er, cb t k v = Some er -> In er l) ->
  may_end (visit cb) (Er er) \/ may_end (visit cb) (Ok (t, Er er)) -> ~ not_code er ->
  of_file er \/ In er (dat_hdr_errs ++ l).
Proof.
  intros C M N.
  assert (R := visit_errs cb (dat_hdr_errs ++ l)
    (fun t k v e H => in_or_app _ _ _ (or_intror (C t k v e H))) (incl_appl _ (incl_refl _))).
  assert (G : good (dat_hdr_errs ++ l) er).
  { destruct M as [M|M]; exact (rets_end _ _ _ R M). }
  destruct G as [G|[G|G]]; [left; exact G|contradiction|right; exact G].
Qed.

Lemma ebind_fails {A B} (p : prog (res A)) (f : A -> prog (res B)) er :
  may_end p (Er er) -> may_end (ebind p f) (Er er).
Proof.
  unfold ebind. intros H. remember (Er er) as r eqn:E.
  induction H as [a|o k n d a H IH|o k e a He H IH]; subst; cbn [bind].
  - constructor.
  - apply me_ok with (n := n) (d := d). exact (IH eq_refl).
  - apply me_err with (e := e); [exact He|exact (IH eq_refl)].
Qed.
