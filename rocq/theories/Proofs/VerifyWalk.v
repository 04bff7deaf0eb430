(** What a successful verify() says about a key file with arbitrary contents: the
    entries of every bucket and its chain, as verify and fetch walk through them. *)
From Verif Require Import Model.Bytes Model.Err Model.Field Model.Format Model.IO
  Model.BulkIO Model.Bucket Model.Pool Model.Recover Model.Create Model.Store Model.History Model.Visit
  Model.Verify Model.Events
  Proofs.BytesFacts Proofs.FieldFacts Proofs.IOFacts Proofs.BucketFacts
  Proofs.BulkFacts Proofs.FormatFacts Proofs.VisitFacts Proofs.VerifyFacts
  Spec SpecFormat SpecHeader SpecVisit SpecVerify.

(** A loop that ends other than by exhaustion ends after some iterations. *)
Lemma itern_inr {S R} (step : S -> prog (S + R)) m : forall s w w' r,
  run (itern m step s) w = (w', inr r) -> exists n, (n <= m)%nat /\ loops step n s w w' r.
Proof.
  induction m as [|m IH]; intros s w w' r Hr; cbn [itern] in Hr; [discriminate|].
  rewrite run_bind in Hr. destruct (run (step s) w) as [w1 [s1|x]] eqn:E.
  - apply IH in Hr as (n & Hn & Hl). exists (Datatypes.S n). split; [lia|]. eapply loops_more; eauto.
  - change (run (Ret (inr x)) w1) with (w1, @inr S R x) in Hr. injection Hr; intros; subst.
    exists 1%nat. split; [lia|]. constructor. exact E.
Qed.

Lemma loops_end {S R} (step : S -> prog (S + R)) n s w w1 w' x r :
  loops step n s w w' r -> run (step s) w = (w1, inr x) -> w' = w1 /\ r = x.
Proof. intros Hl Hr. inversion Hl; subst; rewrite Hr in *; [|discriminate]. split; congruence. Qed.
Lemma loops_next {S R} (step : S -> prog (S + R)) n s w w1 w' s1 r :
  loops step n s w w' r -> run (step s) w = (w1, inl s1) -> exists m, n = Datatypes.S m /\ loops step m s1 w1 w' r.
Proof.
  intros Hl Hr. inversion Hl as [? ? ? ? H|m ? s2 ? w2 ? ? H H']; subst; rewrite Hr in H; [discriminate|].
  injection H; intros; subst. eauto.
Qed.

Lemma loop_inv {S R} (step : S -> prog (S + res R)) s w w' r :
  run (loop step s) w = (w', Ok r) ->
  exists n, N.of_nat n <= 18446744073709551616 /\ loops step n s w w' (Ok r).
Proof.
  unfold loop. rewrite run_bind, run_iterp.
  destruct (run (itern (Pos.to_nat fuel) step s) w) as [w1 [s1|x]] eqn:E.
  - intros X. discriminate X.
  - intros X. change (run (Ret x) w1) with (w1, x) in X. injection X; intros; subst.
    apply itern_inr in E as (n & Hn & Hl). exists n. split; [|exact Hl]. unfold fuel in Hn. lia.
Qed.

Lemma btake_bsub o n m (l : bytes) : n <= m -> btake n (bsub o m l) = bsub o n l.
Proof. intros. unfold bsub. rewrite btake_btake. f_equal. lia. Qed.
Lemma bdrop_bsub o n m (l : bytes) : bdrop n (bsub o (n + m) l) = bsub (o + n) m l.
Proof. unfold bsub. rewrite bdrop_btake, bdrop_bdrop. f_equal. lia. Qed.
Lemma bsub_bwrite_0 o n (x l : bytes) : o + n <= blen x -> bsub o n (bwrite 0 x l) = bsub o n x.
Proof. intros Hn. unfold bwrite. cbv zeta. change (btake 0 ?x) with (@nil N). rewrite app_nil_l. apply bsub_app_l. exact Hn. Qed.

Lemma find_app {A} (f : A -> bool) l1 l2 :
  find f (l1 ++ l2) = match find f l1 with Some x => Some x | None => find f l2 end.
Proof. induction l1 as [|x l1 IH]; cbn [app find]; auto. destruct (f x); auto. Qed.

Section Walk.
Variables (e : env) (bs : N).
Notation cap := (bucket_capacity bs).

(** Reading a bucket from file contents [c]. *)
Definition getb (c : bytes) (off : N) : option bucket :=
  if off + bucket_size cap <=? blen c then
    let b := bk_of_blob (bwrite 0 (bsub off (bucket_size cap) c) (fresh e bs)) in
    if cap <? bk_size b then None else Some b
  else None.

Lemma fresh_len : blen (fresh e bs) = bs.
Proof using. unfold fresh. rewrite blen_btake, blen_app, blen_zeros. lia. Qed.

Lemma read_get w f c off : wget w f = Some c ->
  match getb c off with
  | Some b => run (bk_read (fresh e bs) f off) w = (w, Ok b)
  | None => exists er, run (bk_read (fresh e bs) f off) w = (w, Er er)
  end.
Proof using.
  intros Hw. unfold getb, bk_read. rewrite fresh_len. cbv zeta.
  destruct (N.leb_spec (off + bucket_size cap) (blen c)) as [L|L].
  - rewrite (run_ebind_ok _ _ _ _ _ (run_read _ _ _ _ _ Hw L)).
    destruct (cap <? _); [eexists|]; reflexivity.
  - rewrite (run_ebind_er _ _ _ _ _ (run_read_short f off (bucket_size cap) w c Hw ltac:(unfold bucket_size; lia) L)). eexists. reflexivity.
Qed.

Lemma read_get_ok w f c off w' b : wget w f = Some c ->
  run (bk_read (fresh e bs) f off) w = (w', Ok b) -> w' = w /\ getb c off = Some b.
Proof using.
  intros Hw Hr. pose proof (read_get w f c off Hw) as X. destruct (getb c off) as [b'|].
  - rewrite X in Hr. injection Hr; intros; subst. auto.
  - destruct X as (er & X). rewrite X in Hr. discriminate.
Qed.

Lemma getb_size c off b : getb c off = Some b -> bk_size b <= cap.
Proof using.
  unfold getb. destruct (_ <=? _); [|discriminate]. cbv zeta.
  destruct (N.ltb_spec cap (bk_size (bk_of_blob (bwrite 0 (bsub off (bucket_size cap) c) (fresh e bs))))); [discriminate|].
  intros X. injection X; intros; subst. auto.
Qed.

(** The entries scanned for hash [h], and all entries. *)
Fixpoint scan (fuel : nat) (b : bucket) (h i : N) : list entry :=
  match fuel with
  | O => []
  | S fuel' => if negb (en_hash (bk_at b i) =? h) then [] else bk_at b i :: scan fuel' b h (i + 1)
  end.
Definition cands (h : N) (b : bucket) : list entry :=
  let i := bk_lower_bound b h in scan (N.to_nat (bk_size b - i)) b h i.
Definition ents (b : bucket) : list entry := map (fun i => bk_at b (N.of_nat i)) (seq 0 (N.to_nat (bk_size b))).

Lemma scan_hash b h fuel : forall i en, In en (scan fuel b h i) -> en_hash en = h.
Proof using.
  induction fuel as [|fuel IH]; intros i en Hin; cbn [scan] in Hin; [contradiction|].
  destruct (N.eqb_spec (en_hash (bk_at b i)) h) as [E|E]; cbn [negb] in Hin; [|contradiction].
  destruct Hin as [<-|Hin]; eauto.
Qed.

Lemma scan_ents b h fuel : forall i en, (N.to_nat i + fuel <= N.to_nat (bk_size b))%nat ->
  In en (scan fuel b h i) -> In en (ents b).
Proof using.
  induction fuel as [|fuel IH]; intros i en Hi Hin; cbn [scan] in Hin; [contradiction|].
  destruct (negb _); [contradiction|]. destruct Hin as [<-|Hin].
  - unfold ents. apply in_map_iff. exists (N.to_nat i). split; [f_equal; lia|]. apply in_seq. lia.
  - eapply IH; [|eauto]. lia.
Qed.

Lemma cands_ents h b en : In en (cands h b) -> In en (ents b) /\ en_hash en = h.
Proof using.
  unfold cands. cbv zeta. intros Hin. split; [|eapply scan_hash; eauto].
  destruct (N.leb_spec (bk_size b) (bk_lower_bound b h)) as [L|L].
  - replace (N.to_nat _) with 0%nat in Hin by lia. contradiction.
  - eapply scan_ents; [|eauto]. lia.
Qed.

Lemma ents_len b : blen (ents b) = bk_size b.
Proof using. unfold ents, blen. rewrite map_length, seq_length. lia. Qed.

(** The chain of a bucket, in the data file [d]. *)
Inductive walk (d : bytes) : bucket -> list bucket -> Prop :=
| walk_end b : bk_spill b = 0 -> walk d b [b]
| walk_more b b' l : bk_spill b <> 0 -> getb d (bk_spill b) = Some b' -> walk d b' l -> walk d b (b :: l).

Lemma vfind_scan_cands h o b fuel : forall i,
  vfind_scan fuel h o b i = existsb (fun en => en_off en =? o) (scan fuel b h i).
Proof using.
  induction fuel as [|fuel IH]; intros i; cbn [vfind_scan scan existsb]; auto.
  destruct (negb _); [reflexivity|]. cbn [existsb]. destruct (_ =? o); [reflexivity|]. cbn [orb]. apply IH.
Qed.

Lemma vfind_cands h o b :
  vfind_scan (N.to_nat (bk_size b - bk_lower_bound b h)) h o b (bk_lower_bound b h) =
  existsb (fun en => en_off en =? o) (cands h b).
Proof using. unfold cands. cbv zeta. apply vfind_scan_cands. Qed.

Lemma vfind_eq h o b : vfind e bs h o b = loop (vfind_step e bs h o) b.
Proof using. reflexivity. Qed.

(** A record that verify finds is among the entries scanned along the chain. *)
Lemma vfind_found w d h o : wget w FDat = Some d -> forall b l, walk d b l -> forall w',
  run (vfind e bs h o b) w = (w', Ok tt) ->
  w' = w /\ bk_size b <= cap /\ exists en, In en (flat_map (cands h) l) /\ en_off en = o.
Proof using.
  intros Hw b l Hwk w' Hr. rewrite vfind_eq in Hr. apply loop_inv in Hr as (n & _ & Hl). revert w' n Hl.
  induction Hwk as [b Hs|b b' l Hs Hg Hwk IH]; intros w' n Hl.
  - assert (X : exists r, run (vfind_step e bs h o b) w = (w, inr r) /\
      (r = Ok tt -> bk_size b <= cap /\ exists en, In en (flat_map (cands h) [b]) /\ en_off en = o)).
    { unfold vfind_step. destruct (N.ltb_spec cap (bk_size b)); [eexists; split; [reflexivity|discriminate]|].
      cbv zeta. rewrite vfind_cands. destruct (existsb _ _) eqn:Ex.
      - eexists. split; [reflexivity|]. intros _. split; auto. apply existsb_exists in Ex as (en & Hi & He).
        exists en. split; [|apply N.eqb_eq; auto]. cbn [flat_map]. rewrite app_nil_r. exact Hi.
      - rewrite Hs, N.eqb_refl. eexists. split; [reflexivity|discriminate]. }
    destruct X as (r & Hr & X). destruct (loops_end _ _ _ _ _ _ _ _ Hl Hr) as [E1 E2].
    destruct (X (eq_sym E2)). auto.
  - assert (X : (exists r, run (vfind_step e bs h o b) w = (w, inr r) /\
      (r = Ok tt -> bk_size b <= cap /\ exists en, In en (cands h b) /\ en_off en = o)) \/
      (run (vfind_step e bs h o b) w = (w, inl b') /\ bk_size b <= cap)).
    { unfold vfind_step. destruct (N.ltb_spec cap (bk_size b)); [left; eexists; split; [reflexivity|discriminate]|].
      cbv zeta. rewrite vfind_cands. destruct (existsb _ _) eqn:Ex.
      - left. eexists. split; [reflexivity|]. intros _. split; auto. apply existsb_exists in Ex as (en & Hi & He).
        exists en. split; [exact Hi|apply N.eqb_eq; auto].
      - replace (bk_spill b =? 0) with false by (symmetry; apply N.eqb_neq; auto).
        right. split; auto. pose proof (read_get w FDat d (bk_spill b) Hw) as Y. rewrite Hg in Y.
        rewrite (run_bind_eq _ _ _ _ _ Y). reflexivity. }
    cbn [flat_map]. destruct X as [(r & Hr & X)|(Hr & X)].
    + destruct (loops_end _ _ _ _ _ _ _ _ Hl Hr) as [E1 E2].
      destruct (X (eq_sym E2)) as (X1 & en & X2 & X3). split; auto. split; auto. exists en. split; auto. apply in_app_iff. auto.
    + destruct (loops_next _ _ _ _ _ _ _ _ Hl Hr) as (m & _ & Hm).
      destruct (IH _ _ Hm) as (Y1 & Y2 & en & Y3 & Y4). split; auto. split; auto.
      exists en. split; auto. apply in_app_iff. auto.
Qed.

(** ** fetch and exists along the chain *)
Section Look.
Variables (kh : key_header) (d : bytes) (w : world) (h : N) (key : bytes).
Hypothesis Hw : wget w FDat = Some d.
Hypothesis Hk : kh_block_size kh = bs.
Notation ks := (kh_key_size kh).

Definition is_key (en : entry) : bool := beq (bsub (en_off en + 6) ks d) key.

Lemma fetch_scan_walk b fuel : forall i,
  Forall (fun en => en_off en + 6 + (ks + en_size en) <= blen d) (scan fuel b h i) ->
  run (fetch_scan fuel ks h key b i) w =
  (w, Ok (match find is_key (scan fuel b h i) with
          | Some en => Some (bsub (en_off en + 6 + ks) (en_size en) d) | None => None end)).
Proof using Hw.
  induction fuel as [|fuel IH]; intros i Hg; cbn [fetch_scan scan find] in *; [reflexivity|].
  destruct (negb _); [reflexivity|]. inversion Hg as [|? ? G1 G2]; subst. cbv zeta.
  rewrite (run_ebind_ok _ _ _ _ _ (run_read _ _ _ _ _ Hw G1)).
  cbn [find]. unfold is_key at 1. rewrite btake_bsub by lia.
  destruct (beq _ key).
  - change (run (pret ?x) w) with (w, Ok x). f_equal. f_equal. f_equal. apply bdrop_bsub.
  - apply IH. auto.
Qed.

Lemma exists_scan_walk b fuel : forall i,
  Forall (fun en => en_off en + 6 + ks <= blen d) (scan fuel b h i) ->
  run (exists_scan fuel ks h key b i) w = (w, Ok (existsb is_key (scan fuel b h i))).
Proof using Hw.
  induction fuel as [|fuel IH]; intros i Hg; cbn [exists_scan scan existsb] in *; [reflexivity|].
  destruct (negb _); [reflexivity|]. inversion Hg as [|? ? G1 G2]; subst. cbv zeta.
  rewrite (run_ebind_ok _ _ _ _ _ (run_read _ _ _ _ _ Hw G1)).
  cbn [existsb]. unfold is_key at 1. destruct (beq _ key); [reflexivity|]. apply IH. auto.
Qed.

Lemma fetch_walk b l : walk d b l ->
  Forall (fun en => en_off en + 6 + (ks + en_size en) <= blen d) (flat_map (cands h) l) ->
  exists n, (n <= length l)%nat /\ loops (fetch_step e kh h key) n b w w
    (match find is_key (flat_map (cands h) l) with
     | Some en => Ok (bsub (en_off en + 6 + ks) (en_size en) d) | None => Er key_not_found end).
Proof using Hw Hk.
  induction 1 as [b Hs|b b' l Hs Hg Hwk IH]; intros Hf; cbn [flat_map] in *.
  - exists 1%nat. split; [cbn [length]; lia|]. constructor. unfold fetch_step. cbv zeta.
    rewrite app_nil_r in *. unfold cands in Hf |- *. cbv zeta in *.
    rewrite (run_bind_eq _ _ _ _ _ (fetch_scan_walk _ _ _ Hf)). cbv beta iota.
    destruct (find is_key _); [reflexivity|]. rewrite Hs. reflexivity.
  - apply Forall_app in Hf as [H1 H2]. destruct (IH H2) as (n & Hn & Hl).
    assert (X : run (fetch_step e kh h key b) w = (w, match find is_key (cands h b) with
       | Some en => inr (Ok (bsub (en_off en + 6 + ks) (en_size en) d)) | None => inl b' end)).
    { clear IH Hl. unfold fetch_step. cbv zeta. unfold cands in H1 |- *. cbv zeta in *.
      rewrite (run_bind_eq _ _ _ _ _ (fetch_scan_walk _ _ _ H1)). cbv beta iota.
      destruct (find is_key _); [reflexivity|].
      replace (bk_spill b =? 0) with false by (symmetry; apply N.eqb_neq; auto).
      pose proof (read_get w FDat d (bk_spill b) Hw) as Y. rewrite Hg in Y. rewrite Hk.
      rewrite (run_bind_eq _ _ _ _ _ Y). reflexivity. }
    rewrite find_app. destruct (find is_key (cands h b)) as [en|].
    + exists 1%nat. split; [cbn [length]; lia|]. constructor. exact X.
    + exists (Datatypes.S n). split; [cbn [length]; lia|]. eapply loops_more; eauto.
Qed.

Lemma exists_walk b l : walk d b l ->
  Forall (fun en => en_off en + 6 + ks <= blen d) (flat_map (cands h) l) ->
  exists n, (n <= length l)%nat /\ loops (exists_step e kh h key) n b w w
    (Ok (existsb is_key (flat_map (cands h) l))).
Proof using Hw Hk.
  induction 1 as [b Hs|b b' l Hs Hg Hwk IH]; intros Hf; cbn [flat_map] in *.
  - exists 1%nat. split; [cbn [length]; lia|]. constructor. unfold exists_step. cbv zeta.
    rewrite app_nil_r in *. unfold cands in Hf |- *. cbv zeta in *.
    rewrite (run_bind_eq _ _ _ _ _ (exists_scan_walk _ _ _ Hf)). cbv beta iota.
    destruct (existsb is_key _); [reflexivity|]. rewrite Hs. reflexivity.
  - apply Forall_app in Hf as [H1 H2]. destruct (IH H2) as (n & Hn & Hl).
    assert (X : run (exists_step e kh h key b) w =
      (w, if existsb is_key (cands h b) then inr (Ok true) else inl b')).
    { clear IH Hl. unfold exists_step. cbv zeta. unfold cands in H1 |- *. cbv zeta in *.
      rewrite (run_bind_eq _ _ _ _ _ (exists_scan_walk _ _ _ H1)). cbv beta iota.
      destruct (existsb is_key _); [reflexivity|].
      replace (bk_spill b =? 0) with false by (symmetry; apply N.eqb_neq; auto).
      pose proof (read_get w FDat d (bk_spill b) Hw) as Y. rewrite Hg in Y. rewrite Hk.
      rewrite (run_bind_eq _ _ _ _ _ Y). reflexivity. }
    rewrite existsb_app. destruct (existsb is_key (cands h b)).
    + exists 1%nat. split; [cbn [length]; lia|]. constructor. exact X.
    + exists (Datatypes.S n). split; [cbn [length]; lia|]. eapply loops_more; eauto.
Qed.
End Look.

(** ** A bucket in the buffer of verify_fast *)
Definition alike (b b' : bucket) : Prop :=
  bk_size b = bk_size b' /\ bk_spill b = bk_spill b' /\
  (forall i, i < bk_size b -> bk_at b i = bk_at b' i) /\
  (forall i, i < bk_size b -> bk_hash_at b i = bk_hash_at b' i).

Lemma lb_alike b b' h fuel : forall first count, alike b b' -> first + count <= bk_size b ->
  lb_loop fuel b h first count = lb_loop fuel b' h first count.
Proof using.
  induction fuel as [|fuel IH]; intros first count Ha Hc; cbn [lb_loop]; auto.
  destruct (N.eqb_spec count 0); auto. cbv zeta. pose proof Ha as (_ & _ & _ & Hh).
  assert (count / 2 < count) by (apply N.div_lt; lia).
  rewrite (Hh (first + count / 2)) by lia. destruct (_ <? h); apply IH; auto; lia.
Qed.

Lemma cands_alike b b' h : alike b b' -> cands h b = cands h b'.
Proof using.
  intros Ha. pose proof Ha as (Hs & _ & Hat & _). unfold cands, bk_lower_bound. cbv zeta. rewrite <- Hs.
  rewrite <- (lb_alike b b' h _ 0 (bk_size b) Ha) by lia.
  set (i := lb_loop _ b h 0 (bk_size b)).
  assert (G : forall fuel i, (N.to_nat i + fuel <= N.to_nat (bk_size b))%nat -> scan fuel b h i = scan fuel b' h i).
  { clear i. induction fuel as [|fuel IH]; intros i Hi; cbn [scan]; auto.
    rewrite <- Hat by lia. rewrite IH by lia. reflexivity. }
  destruct (N.leb_spec (bk_size b) i) as [L|L].
  - replace (N.to_nat (bk_size b - i)) with 0%nat by lia. reflexivity.
  - apply G. lia.
Qed.

Lemma ents_alike b b' : alike b b' -> ents b = ents b'.
Proof using.
  intros (Hs & _ & Hat & _). unfold ents. rewrite <- Hs. apply map_ext_in. intros i Hi.
  apply in_seq in Hi. apply Hat. clear bs. lia.
Qed.

Lemma walk_alike d b b' l : alike b b' -> walk d b l ->
  exists l', walk d b' l' /\ length l' = length l /\ flat_map ents l' = flat_map ents l /\
    forall h, flat_map (cands h) l' = flat_map (cands h) l.
Proof using bs.
  intros Ha Hw. pose proof Ha as (_ & Hsp & _). inversion Hw as [x Hs|x x' l' Hs Hg Hwk]; subst.
  - exists [b']. split; [constructor; congruence|]. split; [reflexivity|]. cbn [flat_map].
    rewrite (ents_alike _ _ Ha). split; auto. intros h. rewrite (cands_alike _ _ h Ha). reflexivity.
  - exists (b' :: l'). split; [econstructor; eauto; congruence|]. split; [reflexivity|]. cbn [flat_map].
    rewrite (ents_alike _ _ Ha). split; auto. intros h. rewrite (cands_alike _ _ h Ha). reflexivity.
Qed.

Lemma block_alike c off : 104 <= bs <= 65535 -> off + bs <= blen c ->
  let b := bk_of_blob (bsub off bs c) in
  bk_size b <= cap -> exists b', getb c off = Some b' /\ alike b b'.
Proof using.
  intros Hbs Hc b Hs.
  assert (Hsz : bucket_size cap <= bs) by (destruct (cap_bound bs) as [|X]; [auto|rewrite X; unfold bucket_size; lia]).
  set (x := bsub off (bucket_size cap) c).
  assert (Lx : blen x = bucket_size cap) by (unfold x; apply blen_bsub; lia).
  set (m := bwrite 0 x (fresh e bs)).
  assert (Em : forall o n, o + n <= bucket_size cap -> bsub o n m = bsub o n (bsub off bs c)).
  { intros o n Hon. unfold m. rewrite bsub_bwrite_0 by lia. unfold x. rewrite !bsub_bsub by lia. reflexivity. }
  assert (E8 : 8 <= bucket_size cap) by (unfold bucket_size; lia).
  assert (Hb' : bk_of_blob m = Bucket (bk_size b) (bk_spill b) m).
  { unfold bk_of_blob, b. cbn [bk_size bk_spill bk_of_blob]. rewrite !Em by lia. reflexivity. }
  exists (Bucket (bk_size b) (bk_spill b) m). split.
  - unfold getb. replace (off + bucket_size cap <=? blen c) with true by lia. cbv zeta. fold x. fold m.
    rewrite Hb'. cbn [bk_size]. replace (cap <? bk_size b) with false by lia. reflexivity.
  - assert (Hi8 : forall i, i < bk_size b -> 8 + i * 18 + 18 <= bucket_size cap) by (unfold bucket_size; intros; lia).
    repeat split; auto.
    + intros i Hi. unfold bk_at. cbn [bk_blob]. rewrite Em by (apply Hi8; auto). reflexivity.
    + intros i Hi. unfold bk_hash_at. cbn [bk_blob]. rewrite Em by (specialize (Hi8 i Hi); lia). reflexivity.
Qed.
End Walk.
