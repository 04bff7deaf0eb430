(** No access outside a bucket's block, whatever is in the files. *)
From Verif Require Import Model.Bytes Model.Err Model.Field Model.Format Model.IO
  Model.BulkIO Model.Bucket Model.Pool Model.Recover Model.Store Model.BucketMem
  Proofs.BytesFacts Proofs.FieldFacts Proofs.IOFacts Proofs.BucketFacts.
Opaque loop.

(** ** Programs that agree and whose results satisfy [R] *)
Fixpoint agree {A} (R : A -> Prop) (p q : prog A) : Prop :=
  match p, q with
  | Ret a, Ret b => a = b /\ R a
  | Do o k, Do o' k' => o = o' /\ forall r, plausible o r -> agree R (k r) (k' r)
  | _, _ => False
  end.

Lemma agree_yields {A} (R : A -> Prop) p : forall q, agree R p q -> forall a,
  (yields p a <-> yields q a) /\ (yields p a -> R a).
Proof.
  induction p as [a0|o k IH]; intros [b0|o' k']; cbn [agree]; try contradiction.
  - intros [-> H] a. split; [reflexivity|]. intros Hy. inversion Hy; subst. exact H.
  - intros [<- H] a. split; [split|].
    + intros Hy. inversion Hy as [|? ? r ? Hp Hr]; subst. apply yields_do with r; auto. apply (IH r (k' r)); auto.
    + intros Hy. inversion Hy as [|? ? r ? Hp Hr]; subst. apply yields_do with r; auto. apply (IH r (k' r)); auto.
    + intros Hy. inversion Hy as [|? ? r ? Hp Hr]; subst. apply (IH r (k' r)); auto.
Qed.

Lemma agree_mono {A} (R R' : A -> Prop) : (forall a, R a -> R' a) -> forall p q, agree R p q -> agree R' p q.
Proof.
  intros HR. induction p as [a|o k IH]; intros [b|o' k']; cbn [agree]; try contradiction.
  - intros [-> H]. auto.
  - intros [-> H]. split; auto.
Qed.
Lemma agree_bind {A B} (R : A -> Prop) (R' : B -> Prop) f g : (forall a, R a -> agree R' (f a) (g a)) ->
  forall p q, agree R p q -> agree R' (bind p f) (bind q g).
Proof.
  intros Hf. induction p as [a|o k IH]; intros [b|o' k']; cbn [agree bind]; try contradiction.
  - intros [-> H]. auto.
  - intros [-> H]. split; auto.
Qed.

(** A result that is not undefined behaviour. *)
Definition good {A} (R : A -> Prop) (r : res A) : Prop :=
  match r with Ok a => R a | Er er => er <> EUB end.

Lemma agree_ebind {A B} (R : A -> Prop) (R' : B -> Prop) p q f g :
  agree (good R) p q -> (forall a, R a -> agree (good R') (f a) (g a)) ->
  agree (good R') (ebind p f) (ebind q g).
Proof.
  intros Hp Hf. unfold ebind. eapply agree_bind; [|exact Hp]. intros [a|er] H; cbn [good] in H; [auto|].
  cbn [agree good]. auto.
Qed.
Lemma agree_lift {A B} (R : A -> Prop) (R' : B -> Prop) r (a : A) f q : r = Ok a -> R a ->
  (R a -> agree (good R') (f a) q) -> agree (good R') (ebind (plift r) f) q.
Proof. intros -> Ha H. cbn [ebind plift bind]. auto. Qed.

Lemma agree_iterp {S T} (I : S -> Prop) (R : T -> Prop) (f g : S -> prog (S + T)) :
  (forall s, I s -> agree (fun x => match x with inl s => I s | inr t => R t end) (f s) (g s)) ->
  forall n s, I s -> agree (fun x => match x with inl s => I s | inr t => R t end) (iterp n f s) (iterp n g s).
Proof.
  intros H. induction n as [n IH|n IH|]; intros s Hs; cbn [iterp]; auto.
  - eapply agree_bind; [|apply H; exact Hs]. intros [s1|t] H1; [|cbn [agree]; auto].
    eapply agree_bind; [|apply IH; exact H1]. intros [s2|t] H2; [apply IH; exact H2|cbn [agree]; auto].
  - eapply agree_bind; [|apply IH; exact Hs]. intros [s2|t] H2; [apply IH; exact H2|cbn [agree]; auto].
Qed.
Transparent loop.
Lemma agree_loop {S T} (I : S -> Prop) (R : T -> Prop) (f g : S -> prog (S + res T)) s :
  (forall s, I s -> agree (fun x => match x with inl s => I s | inr t => good R t end) (f s) (g s)) ->
  I s -> agree (good R) (loop f s) (loop g s).
Proof.
  intros H Hs. unfold loop. eapply agree_bind; [|apply (agree_iterp I (good R)); [exact H|exact Hs]].
  intros [s'|t] Ht; cbn [agree good]; split; auto. discriminate.
Qed.
Opaque loop.

(** Programs without checks. *)
Inductive plain {A} (R : A -> Prop) : prog A -> Prop :=
| plain_ret a : R a -> plain R (Ret a)
| plain_do o k : (forall r, plausible o r -> plain R (k r)) -> plain R (Do o k).
Lemma plain_agree {A} (R : A -> Prop) p : plain R p -> agree R p p.
Proof. induction 1; cbn [agree]; auto. Qed.

Definition anyr {A} (a : A) : Prop := True.
Lemma agree_unit o : agree (good anyr) (do_unit o) (do_unit o).
Proof.
  cbn [agree do_unit]. split; auto. intros [er|n d] H; cbn [agree good]; split; auto; [|exact I].
  cbn [plausible] in H. intros ->. exact H.
Qed.
Lemma agree_num o : agree (good anyr) (do_num o) (do_num o).
Proof.
  cbn [agree do_num]. split; auto. intros [er|n d] H; cbn [agree good]; split; auto; [|exact I].
  cbn [plausible] in H. intros ->. exact H.
Qed.
Lemma agree_read f off len : agree (good (fun d => blen d = len /\ bytes_ok d)) (p_read f off len) (p_read f off len).
Proof.
  cbn [agree p_read do_data]. split; auto. intros [er|n d] H; cbn [agree good]; split; auto.
  cbn [plausible] in H. intros ->. exact H.
Qed.
Lemma agree_ok {A} (R : A -> Prop) a : R a -> agree (good R) (pret a) (pret a).
Proof. intros H. cbn [agree pret]. auto. Qed.
Lemma agree_er {A} (R : A -> Prop) er : er <> EUB -> agree (good R) (@pfail A er) (pfail er).
Proof. intros H. cbn [agree pfail]. auto. Qed.

Lemma agree_bw_flush w : agree (good anyr) (bw_flush w) (bw_flush w).
Proof.
  unfold bw_flush. destruct (_ =? _); [apply agree_ok; exact I|].
  eapply agree_ebind; [apply agree_unit|]. intros _ _. apply agree_ok. exact I.
Qed.
Lemma agree_bw_put w d : agree (good anyr) (bw_put w d) (bw_put w d).
Proof.
  unfold bw_put. cbv zeta. eapply agree_ebind; [|intros w1 _; apply agree_ok; exact I].
  destruct (_ <? _); [apply agree_bw_flush|apply agree_ok; exact I].
Qed.

(** ** Buckets *)
Section Mem.
Variables (e : env) (bs : N).
Hypothesis (Hcap : 1 <= bucket_capacity bs) (Hbs : bs <= 65535).
Notation cap := (bucket_capacity bs).

Lemma cap_in : 8 + cap * 18 <= bs.
Proof using All. destruct (cap_bound bs) as [H|H]; [|lia]. unfold bucket_size in H. lia. Qed.
Lemma cap_16 : cap < 65536. Proof using All. apply cap_le. exact Hbs. Qed.

Definition pfit (p : bytes) : Prop := blen p = bs /\ rd16 (bsub 0 2 p) <= cap.
Definition bfit (b : bucket) : Prop :=
  bk_bs b = bs /\ bk_size b <= cap /\ rd16 (bsub 0 2 (bk_blob b)) = bk_size b.
Definition cfit (c : cache) : Prop := Forall (fun nb => pfit (snd nb)) c.

Lemma bfit_blob b : bfit b -> pfit (bk_blob b).
Proof using All. intros (H1 & H2 & H3). split; [exact H1|]. rewrite H3. exact H2. Qed.
Lemma pfit_bucket p : pfit p -> bfit (bk_of_blob p).
Proof using All. intros (H1 & H2). split; [exact H1|]. split; [exact H2|reflexivity]. Qed.
Lemma ck_of_blob_ok p : pfit p -> ck_of_blob p = Ok (bk_of_blob p).
Proof using All.
  intros (H1 & _). unfold ck_of_blob. pose proof cap_in. replace (8 <=? blen p) with true by (symmetry; apply N.leb_le; lia).
  reflexivity.
Qed.

Lemma cfit_find c n p : cfit c -> cache_find c n = Some p -> pfit p.
Proof using All.
  induction c as [|[m q] c IH]; cbn [cache_find]; [discriminate|]. intros H. inversion H; subst.
  destruct (m =? n); [intros [= <-]; assumption|]. apply IH. assumption.
Qed.
Lemma cfit_set c n p : cfit c -> pfit p -> cfit (cache_set c n p).
Proof using All.
  intros H Hp. induction c as [|[m q] c IH]; cbn [cache_set].
  - constructor; [exact Hp|constructor].
  - inversion H; subst. destruct (m =? n); constructor; auto. apply IH. assumption.
Qed.
Lemma cfit_iter c : iter_ok e -> cfit c -> cfit (e_iter e c).
Proof using All.
  intros Hi H. unfold cfit in *. rewrite Forall_forall in *. intros x Hx. apply H.
  eapply Permutation_in; [symmetry; apply Hi|exact Hx].
Qed.

Lemma at_ok b i : bfit b -> i < bk_size b -> ck_at b i = Ok (bk_at b i).
Proof using All.
  intros (H1 & H2 & _) Hi. pose proof cap_in. unfold ck_at, within.
  replace (8 + i * 18 + 18 <=? bk_bs b) with true by (symmetry; apply N.leb_le; nia). reflexivity.
Qed.

Lemma lb_ok b h : bfit b -> forall fuel first count, first + count <= bk_size b ->
  ck_lb_loop fuel b h first count = Ok (lb_loop fuel b h first count) /\
  lb_loop fuel b h first count <= first + count.
Proof using All.
  intros (H1 & H2 & _). pose proof cap_in as Hc. induction fuel as [|fuel IH]; intros first count Hf; cbn [ck_lb_loop lb_loop];
    [split; [reflexivity|lia]|].
  destruct (N.eqb_spec count 0) as [->|Hn]; [split; [reflexivity|lia]|].
  assert (count / 2 < count) by (apply N.div_lt; lia).
  replace (within b (20 + (first + count / 2) * 18) 6) with true
    by (symmetry; unfold within; apply N.leb_le; nia). unfold need.
  destruct (bk_hash_at b (first + count / 2) <? h).
  - destruct (IH (first + count / 2 + 1) (count - (count / 2 + 1))) as [X Y]; [lia|]. split; [exact X|lia].
  - destruct (IH first (count / 2)) as [X Y]; [lia|]. split; [exact X|lia].
Qed.
Lemma lower_ok b h : bfit b -> ck_lower_bound b h = Ok (bk_lower_bound b h) /\ bk_lower_bound b h <= bk_size b.
Proof using All.
  intros H. destruct (lb_ok b h H (S (N.size_nat (bk_size b))) 0 (bk_size b)) as [X Y]; [lia|].
  split; [exact X|]. rewrite N.add_0_l in Y. exact Y.
Qed.

Lemma bsub_before o n off d f : o + n <= off -> off <= blen f -> bsub o n (bwrite off d f) = bsub o n f.
Proof using All.
  intros H1 H2. unfold bwrite. replace (off - blen f) with 0 by lia. rewrite zeros_0, app_nil_r.
  rewrite bsub_app_l by (rewrite blen_btake; lia). rewrite bsub_btake by lia. reflexivity.
Qed.
Lemma bsub_start d f : blen d <= blen f -> bsub 0 (blen d) (bwrite 0 d f) = d.
Proof using All.
  intros H. rewrite bwrite_in by lia. rewrite btake_0. cbn [app]. rewrite bsub_0. apply btake_app_eq. reflexivity.
Qed.
Lemma update_blob b : 8 <= bk_bs b -> bk_size b < 65536 ->
  bk_bs (bk_update b) = bk_bs b /\ rd16 (bsub 0 2 (bk_blob (bk_update b))) = bk_size b /\ bk_size (bk_update b) = bk_size b.
Proof using All.
  intros H1 H2. unfold bk_update, bk_bs. cbn [bk_blob bk_size].
  assert (L : blen (wr16 (bk_size b) ++ wr48 (bk_spill b)) = 8) by (rewrite blen_app, blen_wr16, blen_wr48; reflexivity).
  split; [apply blen_bwrite; rewrite L; exact H1|]. split; [|reflexivity].
  rewrite bwrite_in by (rewrite L; exact H1). rewrite btake_0. cbn [app]. rewrite <- app_assoc.
  rewrite bsub_0, btake_app_eq by (rewrite blen_wr16; reflexivity). apply rd_wr16. exact H2.
Qed.
Lemma update_fit b : bk_bs b = bs -> bk_size b <= cap -> bfit (bk_update b).
Proof using All.
  intros H1 H2. pose proof cap_in. pose proof cap_16.
  destruct (update_blob b) as (A & B & C); [lia|lia|]. split; [lia|]. split; [rewrite C; lia|]. rewrite B, C. reflexivity.
Qed.
Lemma set_spill_ok b off : bfit b -> ck_set_spill b off = Ok (bk_set_spill b off) /\ bfit (bk_set_spill b off).
Proof using All.
  intros (H1 & H2 & _). pose proof cap_in. split.
  - unfold ck_set_spill, ck_update, within, bk_set_spill. unfold bk_bs in *. cbn [bk_blob].
    replace (0 + 8 <=? blen (bk_blob b)) with true by (symmetry; apply N.leb_le; lia). reflexivity.
  - unfold bk_set_spill. apply update_fit; [exact H1|exact H2].
Qed.
Lemma empty_fit : bfit (bk_empty bs).
Proof using All.
  pose proof cap_in. split; [unfold bk_bs; apply blen_zeros|]. cbn [bk_empty bk_size bk_blob]. split; [lia|].
  assert (E : zeros bs = zeros 2 ++ zeros (bs - 2)).
  { rewrite zeros_app. f_equal. lia. }
  rewrite E, bsub_0, btake_app_eq by (rewrite blen_zeros; reflexivity). reflexivity.
Qed.

Lemma insert_ok b off size h : bfit b -> bk_size b < cap ->
  ck_insert b off size h = bk_insert b off size h /\
  match bk_insert b off size h with Ok b' => bfit b' /\ bk_size b' = bk_size b + 1 | Er er => er <> EUB end.
Proof using All.
  intros Hb Hs. pose proof Hb as (H1 & H2 & H3). pose proof cap_in as Hc. pose proof cap_16 as Hc16.
  destruct (lower_ok b h Hb) as [L1 L2].
  assert (E : bk_bs b <? 8 + (bk_size b + 1) * 18 = false) by (apply N.ltb_ge; nia).
  unfold ck_insert, bk_insert. rewrite L1, E. cbn [rbind]. cbv zeta. set (i := bk_lower_bound b h) in *.
  unfold need, within.
  replace (i <=? bk_size b) with true by (symmetry; apply N.leb_le; exact L2).
  replace (8 + i * 18 + (bk_size b - i) * 18 <=? bk_bs b) with true by (symmetry; apply N.leb_le; nia).
  replace (8 + (i + 1) * 18 + (bk_size b - i) * 18 <=? bk_bs b) with true by (symmetry; apply N.leb_le; nia).
  replace (0 + 8 <=? bk_bs b) with true by (symmetry; apply N.leb_le; lia).
  replace (8 + i * 18 + 18 <=? bk_bs b) with true by (symmetry; apply N.leb_le; nia).
  destruct (_ || _); [split; [reflexivity|discriminate]|]. split; [reflexivity|].
  set (blob1 := bwrite _ _ (bk_blob b)).
  assert (B1 : blen blob1 = bs).
  { unfold blob1. rewrite blen_bwrite; [exact H1|]. rewrite blen_bsub; [unfold bk_bs in *; nia|unfold bk_bs in *; nia]. }
  destruct (update_blob (Bucket (bk_size b + 1) (bk_spill b) blob1)) as (A & B & C);
    [unfold bk_bs; cbn [bk_blob]; lia|cbn [bk_size]; lia|].
  cbn [bk_size] in A, B, C. unfold bk_bs in A. cbn [bk_blob] in A.
  set (b1 := bk_update _) in *.
  assert (LE : blen (enc_entry (Entry off size h)) = 18) by apply blen_enc_entry.
  split; [|cbn [bk_size]; exact C]. split; [unfold bk_bs; cbn [bk_blob]; rewrite blen_bwrite; [lia|rewrite LE; nia]|].
  cbn [bk_size bk_blob]. split; [lia|]. rewrite bsub_before by (unfold bk_bs in *; lia || nia). rewrite B, C. reflexivity.
Qed.

Lemma erase_ok b i : bfit b -> i < bk_size b ->
  ck_erase b i = Ok (bk_erase b i) /\ bfit (bk_erase b i) /\ bk_size (bk_erase b i) = bk_size b - 1.
Proof using All.
  intros (H1 & H2 & H3) Hi. pose proof cap_in as Hc. pose proof cap_16 as Hc16.
  unfold ck_erase, need, within. cbv zeta.
  replace (bk_size b =? 0) with false by (symmetry; apply N.eqb_neq; lia). cbn [negb].
  replace (8 + i * 18 + (bk_size b - 1 - i) * 18 <=? bk_bs b) with true by (symmetry; apply N.leb_le; nia).
  replace (8 + (i + 1) * 18 + (bk_size b - 1 - i) * 18 <=? bk_bs b) with true by (symmetry; apply N.leb_le; nia).
  replace (8 + (bk_size b - 1) * 18 + 18 <=? bk_bs b) with true by (symmetry; apply N.leb_le; nia).
  replace (0 + 8 <=? bk_bs b) with true by (symmetry; apply N.leb_le; lia).
  split; [destruct (i <? bk_size b - 1); reflexivity|].
  unfold bk_erase. cbv zeta. set (blob1 := if i <? bk_size b - 1 then _ else _).
  assert (B1 : blen blob1 = bs).
  { unfold blob1. destruct (N.ltb_spec i (bk_size b - 1)); [|exact H1].
    rewrite blen_bwrite; [exact H1|]. rewrite blen_bsub; unfold bk_bs in *; nia. }
  assert (B2 : blen (bwrite (8 + (bk_size b - 1) * 18) (zeros 18) blob1) = bs).
  { rewrite blen_bwrite; [exact B1|]. rewrite blen_zeros. unfold bk_bs in *; nia. }
  split; [apply update_fit; [exact B2|cbn [bk_size]; lia]|]. reflexivity.
Qed.

Lemma blob_fit d p : blen p = bs -> blen d = bucket_size cap -> blen (bwrite 0 d p) = bs.
Proof using All.
  intros Hp Hd. pose proof cap_in. rewrite blen_bwrite; [exact Hp|]. rewrite Hd. unfold bucket_size. lia.
Qed.
Lemma read_ok p f off : blen p = bs -> agree (good bfit) (ck_read p f off) (bk_read p f off).
Proof using All.
  intros Hp. pose proof cap_in as Hc. unfold ck_read, bk_read. cbv zeta. rewrite Hp.
  replace (bs <? bucket_size cap) with false by (symmetry; apply N.ltb_ge; unfold bucket_size; lia).
  eapply agree_ebind; [apply agree_read|]. intros d [Hd _].
  assert (B : blen (bwrite 0 d p) = bs) by (apply blob_fit; assumption).
  unfold ck_of_blob, need. rewrite B. replace (8 <=? bs) with true by (symmetry; apply N.leb_le; lia).
  cbn [ebind plift bind]. destruct (N.ltb_spec cap (bk_size (bk_of_blob (bwrite 0 d p)))) as [Hl|Hl];
    [apply agree_er; discriminate|]. apply agree_ok. split; [exact B|]. split; [exact Hl|reflexivity].
Qed.
Lemma actual_in b : bfit b -> bk_actual b <= bk_bs b.
Proof using All. intros (H1 & H2 & H3). pose proof cap_in. unfold bk_actual, bucket_size. nia. Qed.
Lemma compact_ok b : bfit b -> ck_compact b = Ok (bk_compact b).
Proof using All.
  intros Hb. pose proof (actual_in b Hb). unfold ck_compact, within, need. 
  replace (0 + bk_actual b <=? bk_bs b) with true by (symmetry; apply N.leb_le; lia). reflexivity.
Qed.
Lemma full_false b : bfit b -> bk_full b = false -> bk_size b < cap.
Proof using All. intros (H1 & _) H. unfold bk_full in H. rewrite H1 in H. apply N.leb_gt in H. exact H. Qed.
Lemma spill_ok b w : bfit b ->
  agree (good (fun x => bfit (fst x) /\ bk_size (fst x) < cap)) (ck_maybe_spill b w) (maybe_spill b w).
Proof using All.
  intros Hb. unfold ck_maybe_spill, maybe_spill. cbv zeta. destruct (bk_full b) eqn:F.
  - rewrite (compact_ok b Hb). cbn [ebind plift bind].
    change (bind (bw_put w ?d) ?f) with (bind (bw_put w d) f).
    eapply (agree_ebind anyr); [apply agree_bw_put|]. intros w' _.
    destruct (_ <? _); [apply agree_er; discriminate|].
    pose proof Hb as (H1 & _). rewrite H1. destruct (set_spill_ok (bk_empty bs) (bw_offset w + 8) empty_fit) as [E X].
    rewrite E. cbn [ebind plift bind]. apply agree_ok. cbn [fst]. split; [exact X|]. cbn [bk_size bk_set_spill bk_update bk_empty]. lia.
  - apply agree_ok. cbn [fst]. split; [exact Hb|]. apply full_false; assumption.
Qed.
Lemma cache_blob_ok b : bfit b -> ck_cache_blob e b = Ok (cache_blob e b) /\ pfit (cache_blob e b).
Proof using All.
  intros Hb. pose proof Hb as (H1 & H2 & H3). pose proof (actual_in b Hb) as Ha. pose proof cap_in.
  unfold ck_cache_blob. rewrite (compact_ok b Hb). cbn [rbind]. split; [reflexivity|].
  unfold cache_blob. rewrite H1 in *. unfold bk_compact.
  assert (L : blen (btake (bk_actual b) (bk_blob b)) = bk_actual b) by (rewrite blen_btake; unfold bk_bs in *; lia).
  assert (B : blen (bwrite 0 (btake (bk_actual b) (bk_blob b)) (fresh e bs)) = bs)
    by (rewrite blen_bwrite; rewrite ?blen_fresh; lia).
  split; [exact B|].
  rewrite bwrite_in by (rewrite L, blen_fresh; lia). rewrite btake_0. cbn [app].
  assert (8 <= bk_actual b) by (unfold bk_actual, bucket_size; lia).
  rewrite bsub_app_l by (rewrite L; lia). rewrite bsub_btake by lia.
  lia.
Qed.

(** ** Fetch and exists *)
Variable (kh : key_header).
Hypothesis (Hkh : kh_block_size kh = bs).

Lemma fresh_bs : blen (fresh e (kh_block_size kh)) = bs.
Proof using All. rewrite blen_fresh. exact Hkh. Qed.

Lemma plift_bind {A B} (a : A) (f : A -> prog (res B)) : ebind (plift (Ok a)) f = f a.
Proof. reflexivity. Qed.
Lemma rlift_er {A B} er (f : A -> prog (res B)) : ebind (plift (Er er)) f = pfail er.
Proof. reflexivity. Qed.

Lemma fetch_scan_ok ks h key b : bfit b -> forall fuel i, i + N.of_nat fuel <= bk_size b ->
  agree (good anyr) (ck_fetch_scan fuel ks h key b i) (fetch_scan fuel ks h key b i).
Proof using All.
  intros Hb. induction fuel as [|fuel IH]; intros i Hi; cbn [ck_fetch_scan fetch_scan]; [apply agree_ok; exact I|].
  rewrite (at_ok b i Hb) by lia. rewrite plift_bind. cbv zeta.
  destruct (negb _); [apply agree_ok; exact I|].
  eapply agree_ebind; [apply agree_read|]. intros d _. destruct (beq _ _); [apply agree_ok; exact I|].
  apply IH. lia.
Qed.
Lemma exists_scan_ok ks h key b : bfit b -> forall fuel i, i + N.of_nat fuel <= bk_size b ->
  agree (good anyr) (ck_exists_scan fuel ks h key b i) (exists_scan fuel ks h key b i).
Proof using All.
  intros Hb. induction fuel as [|fuel IH]; intros i Hi; cbn [ck_exists_scan exists_scan]; [apply agree_ok; exact I|].
  rewrite (at_ok b i Hb) by lia. rewrite plift_bind. cbv zeta.
  destruct (negb _); [apply agree_ok; exact I|].
  eapply agree_ebind; [apply agree_read|]. intros d _. destruct (beq _ _); [apply agree_ok; exact I|].
  apply IH. lia.
Qed.

Lemma fetch_bucket_ok h key b : bfit b -> agree (good anyr) (ck_fetch_bucket e kh h key b) (fetch_bucket e kh h key b).
Proof using All.
  intros Hb. unfold ck_fetch_bucket, fetch_bucket. apply (agree_loop bfit); [|exact Hb]. clear b Hb. intros b Hb.
  unfold ck_fetch_step, fetch_step. cbv zeta. destruct (lower_ok b h Hb) as [L1 L2]. rewrite L1, plift_bind.
  eapply agree_bind; [|apply (fetch_scan_ok _ _ _ b Hb); lia].
  intros [[v|]|er] Hr; cbn [good] in Hr.
  - cbn [agree good]. split; [reflexivity|exact I].
  - destruct (_ =? 0); [cbn [agree good]; split; [reflexivity|discriminate]|].
    eapply agree_bind; [|apply read_ok; apply fresh_bs]. intros [b'|er] Hr'; cbn [agree good] in *; auto.
  - cbn [agree good]. auto.
Qed.
Lemma exists_bucket_ok h key b : bfit b -> agree (good anyr) (ck_exists_bucket e kh h key b) (exists_bucket e kh h key b).
Proof using All.
  intros Hb. unfold ck_exists_bucket, exists_bucket. apply (agree_loop bfit); [|exact Hb]. clear b Hb. intros b Hb.
  unfold ck_exists_step, exists_step. cbv zeta. destruct (lower_ok b h Hb) as [L1 L2]. rewrite L1, plift_bind.
  eapply agree_bind; [|apply (exists_scan_ok _ _ _ b Hb); lia].
  intros [[|]|er] Hr; cbn [good] in Hr.
  - cbn [agree good]. split; [reflexivity|exact I].
  - destruct (_ =? 0); [cbn [agree good]; split; [reflexivity|exact I]|].
    eapply agree_bind; [|apply read_ok; apply fresh_bs]. intros [b'|er] Hr'; cbn [agree good] in *; auto.
  - cbn [agree good]. auto.
Qed.

(** ** Split *)
Lemma split_own_ok n2 bu mo : forall fuel b1 b2 i, bfit b1 -> bfit b2 ->
  i + N.of_nat fuel <= bk_size b1 -> bk_size b1 + bk_size b2 <= cap ->
  ck_split_own fuel n2 bu mo b1 b2 i = split_own fuel n2 bu mo b1 b2 i /\
  good (fun x => bfit (fst x) /\ bfit (snd x)) (split_own fuel n2 bu mo b1 b2 i).
Proof using All.
  induction fuel as [|fuel IH]; intros b1 b2 i H1 H2 Hi Hs; cbn [ck_split_own split_own];
    [split; [reflexivity|split; assumption]|].
  rewrite (at_ok b1 i H1) by lia. cbn [rbind]. cbv zeta. set (en := bk_at b1 i).
  destruct (_ =? n2).
  - destruct (insert_ok b2 (en_off en) (en_size en) (en_hash en) H2) as [E X]; [lia|]. rewrite E.
    destruct (bk_insert b2 _ _ _) as [b2'|er]; [|cbn [rbind good]; split; [reflexivity|exact X]].
    destruct X as [X1 X2]. cbn [rbind].
    destruct (erase_ok b1 i H1) as (Y1 & Y2 & Y3); [lia|]. rewrite Y1. cbn [rbind].
    apply IH; [exact Y2|exact X1|rewrite Y3; lia|rewrite Y3; lia].
  - apply IH; [exact H1|exact H2|lia|exact Hs].
Qed.

Definition fits3 (x : bucket * bucket * bwriter) : Prop := bfit (fst (fst x)) /\ bfit (snd (fst x)).

Lemma split_spill_ok n2 bu mo tmp : bfit tmp -> forall fuel i b1 b2 w, bfit b1 -> bfit b2 ->
  i + N.of_nat fuel <= bk_size tmp ->
  agree (good fits3) (ck_split_spill fuel n2 bu mo tmp i b1 b2 w) (split_spill fuel n2 bu mo tmp i b1 b2 w).
Proof using All.
  intros Ht. induction fuel as [|fuel IH]; intros i b1 b2 w H1 H2 Hi; cbn [ck_split_spill split_spill].
  - apply agree_ok. split; assumption.
  - rewrite (at_ok tmp i Ht) by lia. rewrite plift_bind. cbv zeta. set (en := bk_at tmp i).
    destruct (_ =? n2).
    + eapply agree_ebind; [apply (spill_ok b2 w H2)|]. intros [b w'] [Hb Hsz]. cbn [fst] in Hb, Hsz.
      destruct (insert_ok b (en_off en) (en_size en) (en_hash en) Hb Hsz) as [E X]. rewrite E.
      destruct (bk_insert b _ _ _) as [b'|er]; [|rewrite rlift_er; apply agree_er; exact X].
      destruct X as [X1 X2]. rewrite !plift_bind. apply IH; [exact H1|exact X1|lia].
    + eapply agree_ebind; [apply (spill_ok b1 w H1)|]. intros [b w'] [Hb Hsz]. cbn [fst] in Hb, Hsz.
      destruct (insert_ok b (en_off en) (en_size en) (en_hash en) Hb Hsz) as [E X]. rewrite E.
      destruct (bk_insert b _ _ _) as [b'|er]; [|rewrite rlift_er; apply agree_er; exact X].
      destruct X as [X1 X2]. rewrite !plift_bind. apply IH; [exact X1|exact H2|lia].
Qed.

Lemma split_ok b1 n2 bu mo w : bfit b1 ->
  agree (good fits3) (ck_split e kh b1 (bk_empty bs) n2 bu mo w) (Store.split e kh b1 (bk_empty bs) n2 bu mo w).
Proof using All.
  intros H1. unfold ck_split, Store.split. pose proof H1 as (_ & Hsz & _).
  destruct (_ =? 0); [apply agree_ok; split; [exact H1|exact empty_fit]|].
  destruct (split_own_ok n2 bu mo (N.to_nat (bk_size b1)) b1 (bk_empty bs) 0 H1 empty_fit) as [E X];
    [lia|cbn [bk_empty bk_size]; lia|]. rewrite E.
  destruct (split_own _ _ _ _ _ _ _) as [[b b2]|er]; [|rewrite !rlift_er; apply agree_er; exact X].
  cbn [good fst snd] in X. destruct X as [X1 X2]. rewrite !plift_bind. cbv zeta.
  destruct (_ =? 0); [apply agree_ok; split; assumption|].
  destruct (set_spill_ok b 0 X1) as [Y1 Y2]. rewrite Y1, plift_bind.
  apply (agree_loop (fun st => let '(_, b1, b2, _) := st in bfit b1 /\ bfit b2)); [|split; assumption].
  clear - Hcap Hbs Hkh. intros [[[spill c1] c2] w] [H1 H2]. unfold ck_split_step, split_step.
  eapply (agree_bind (good (fun x => let '(_, b1, b2, _) := x in bfit b1 /\ bfit b2))).
  - intros [[[[s' c1'] c2'] w']|er] Hr; cbn [good] in Hr; [|cbn [agree good]; auto].
    destruct (s' =? 0); cbn [agree good]; [|auto]. split; [reflexivity|exact Hr].
  - eapply (agree_ebind anyr). { destruct (_ <? _); [apply agree_bw_flush|apply agree_ok; exact I]. }
    intros w' _. eapply agree_ebind; [apply read_ok; apply fresh_bs|]. intros tmp Ht.
    eapply agree_ebind; [apply (split_spill_ok n2 bu mo tmp Ht); [exact H1|exact H2|lia]|].
    intros [[d1 d2] w''] [D1 D2]. apply agree_ok. split; [exact D1|exact D2].
Qed.

(** ** Commit *)
Lemma load_ok n c0 c1 : cfit c0 -> cfit c1 ->
  agree (good (fun x => bfit (fst (fst x)) /\ cfit (snd (fst x)) /\ cfit (snd x))) (ck_load e kh n c0 c1) (load e kh n c0 c1).
Proof using All.
  intros H0 H1. unfold ck_load, load. destruct (cache_find c1 n) as [p|] eqn:E1.
  - pose proof (cfit_find c1 n p H1 E1) as Hp. rewrite (ck_of_blob_ok p Hp), plift_bind.
    apply agree_ok. cbn [fst snd]. split; [apply pfit_bucket; exact Hp|split; assumption].
  - destruct (cache_find c0 n) as [p|] eqn:E0.
    + pose proof (cfit_find c0 n p H0 E0) as Hp. rewrite (ck_of_blob_ok p Hp), plift_bind. cbv zeta.
      destruct (cache_blob_ok _ (pfit_bucket p Hp)) as [Q1 Q2]. rewrite Q1, plift_bind.
      rewrite (ck_of_blob_ok _ Q2), plift_bind. apply agree_ok. cbn [fst snd].
      split; [apply pfit_bucket; exact Q2|]. split; [exact H0|apply cfit_set; assumption].
    + eapply agree_ebind; [apply read_ok; apply fresh_bs|]. intros b Hb. cbv zeta.
      destruct (cache_blob_ok b Hb) as [Q1 Q2]. rewrite Q1, plift_bind.
      rewrite (ck_of_blob_ok _ Q2), plift_bind. apply agree_ok. cbn [fst snd].
      split; [apply pfit_bucket; exact Q2|]. split; apply cfit_set; assumption.
Qed.

Definition csfit (st : cstate) : Prop := cfit (cs_c0 st) /\ cfit (cs_c1 st).

Lemma commit_split_ok th st : csfit st ->
  agree (good csfit) (ck_commit_split e kh th st) (commit_split e kh th st).
Proof using All.
  intros [H0 H1]. unfold ck_commit_split, commit_split. cbv zeta.
  destruct (_ <=? _); [|apply agree_ok; split; assumption].
  eapply agree_ebind; [apply load_ok; assumption|]. intros [[b1 c0] c1] (B & C0 & C1). cbn [fst snd] in B, C0, C1.
  rewrite Hkh. eapply agree_ebind; [apply split_ok; exact B|]. intros [[d1 d2] w] [D1 D2]. cbn [fst snd] in D1, D2.
  apply agree_ok. split; cbn [cs_c0 cs_c1]; [exact C0|].
  apply cfit_set; [apply cfit_set; [exact C1|apply bfit_blob; exact D1]|apply bfit_blob; exact D2].
Qed.
Lemma commit_insert_ok th xo st : csfit st ->
  agree (good csfit) (ck_commit_insert e kh th xo st) (commit_insert e kh th xo st).
Proof using All.
  intros H. destruct xo as [x off]. unfold ck_commit_insert, commit_insert.
  eapply agree_ebind; [apply commit_split_ok; exact H|]. intros st' [H0 H1]. cbv zeta.
  eapply agree_ebind; [apply load_ok; assumption|]. intros [[b c0] c1] (B & C0 & C1). cbn [fst snd] in B, C0, C1.
  eapply agree_ebind; [apply spill_ok; exact B|]. intros [b' w'] [B' S']. cbn [fst] in B', S'.
  destruct (insert_ok b' off (blen (pe_data x)) (pe_hash x) B' S') as [E X]. rewrite E.
  destruct (bk_insert b' _ _ _) as [b2|er]; [|rewrite !rlift_er; apply agree_er; exact X].
  destruct X as [X1 X2]. rewrite !plift_bind. apply agree_ok. split; cbn [cs_c0 cs_c1]; [exact C0|].
  apply cfit_set; [exact C1|apply bfit_blob; exact X1].
Qed.
Lemma commit_inserts_ok th : forall l st, csfit st ->
  agree (good csfit) (ck_commit_inserts e kh th l st) (commit_inserts e kh th l st).
Proof using All.
  induction l as [|xo l IH]; intros st H; cbn [ck_commit_inserts commit_inserts]; [apply agree_ok; exact H|].
  eapply agree_ebind; [apply commit_insert_ok; exact H|]. intros st' H'. apply IH. exact H'.
Qed.
Lemma commit_records_ok : forall l w, agree (good anyr) (commit_records l w) (commit_records l w).
Proof using All.
  induction l as [|x l IH]; intros w; cbn [commit_records]; [apply agree_ok; exact I|]. cbv zeta.
  eapply agree_ebind; [apply agree_bw_put|]. intros w' _. eapply agree_ebind; [apply IH|].
  intros [r w2] _. apply agree_ok. exact I.
Qed.
Lemma commit_data_ok th fr bu mo p0 :
  agree (good csfit) (ck_commit_data e kh th fr bu mo p0) (commit_data e kh th fr bu mo p0).
Proof using All.
  unfold ck_commit_data, commit_data. eapply agree_ebind; [apply agree_num|]. intros size _. cbv zeta.
  eapply agree_ebind; [apply commit_records_ok|]. intros [l w] _.
  eapply agree_ebind; [apply commit_inserts_ok; split; constructor|]. intros st [H0 H1].
  eapply agree_ebind; [apply agree_bw_flush|]. intros w' _. apply agree_ok. split; assumption.
Qed.
Lemma commit_log_records_ok : forall c w, cfit c ->
  agree (good anyr) (ck_commit_log_records c w) (commit_log_records c w).
Proof using All.
  induction c as [|nb c IH]; intros w H; cbn [ck_commit_log_records commit_log_records]; [apply agree_ok; exact I|].
  inversion H as [|? ? Hp Hc]; subst. rewrite (ck_of_blob_ok _ Hp), plift_bind.
  rewrite (compact_ok _ (pfit_bucket _ Hp)), plift_bind. unfold log_record.
  eapply agree_ebind; [apply agree_bw_put|]. intros w' _. apply IH. exact Hc.
Qed.
Lemma commit_log_ok c : iter_ok e -> cfit c -> agree (good anyr) (ck_commit_log e c) (commit_log e c).
Proof using All.
  intros Hi Hc. unfold ck_commit_log, commit_log. eapply agree_ebind; [apply agree_num|]. intros size _. cbv zeta.
  eapply agree_ebind; [apply commit_log_records_ok; apply cfit_iter; assumption|]. intros w _.
  eapply agree_ebind; [apply agree_bw_flush|]. intros _ _. apply agree_unit.
Qed.
Lemma commit_key_ok k : forall c, cfit c -> agree (good anyr) (ck_commit_key k c) (commit_key k c).
Proof using All.
  induction c as [|[n p] c IH]; intros H; cbn [ck_commit_key commit_key]; [apply agree_ok; exact I|].
  inversion H as [|? ? Hp Hc]; subst. cbn [snd] in Hp. rewrite (ck_of_blob_ok _ Hp), plift_bind. unfold ck_write.
  pose proof (actual_in _ (pfit_bucket _ Hp)) as Ha.
  replace (bk_bs (bk_of_blob p) <? bk_actual (bk_of_blob p)) with false by (symmetry; apply N.ltb_ge; exact Ha).
  unfold bk_write. eapply agree_ebind; [apply agree_unit|]. intros _ _. apply IH. exact Hc.
Qed.
End Mem.

(** ** Stores *)
Definition fits (s : store) : Prop :=
  1 <= bucket_capacity (kh_block_size (st_kh s)) /\ kh_block_size (st_kh s) <= 65535 /\
  cfit (kh_block_size (st_kh s)) (st_c1 s) /\ st_ec s <> Some EUB.

Lemma fetch_agree e s k : fits s -> agree (good anyr) (ck_store_fetch e s k) (store_fetch e s k).
Proof.
  intros (Hc & Hb & Hf & He). unfold ck_store_fetch, store_fetch. destruct (st_ec s) as [er|]; [apply agree_er; congruence|].
  cbv zeta. destruct (pool_find (st_p1 s) k); [apply agree_ok; exact I|].
  destruct (pool_find (st_p0 s) k); [apply agree_ok; exact I|].
  destruct (cache_find (st_c1 s) _) as [p|] eqn:E.
  - pose proof (cfit_find e _ Hc Hb _ _ _ Hf E) as Hp. rewrite (ck_of_blob_ok e _ Hc Hb p Hp), plift_bind.
    apply (fetch_bucket_ok e _ Hc Hb (st_kh s) eq_refl); [exact (pfit_bucket e _ Hc Hb p Hp)].
  - eapply agree_ebind; [apply (read_ok e _ Hc Hb); apply blen_fresh|]. intros b B.
    apply (fetch_bucket_ok e _ Hc Hb (st_kh s) eq_refl); [exact B].
Qed.
Lemma insert_agree e s k v : fits s -> agree (good fits) (ck_store_insert e s k v) (store_insert e s k v).
Proof.
  intros (Hc & Hb & Hf & He). unfold ck_store_insert, store_insert. destruct (st_ec s) as [er|]; [apply agree_er; congruence|].
  destruct (_ || _); [apply agree_er; discriminate|]. cbv zeta.
  destruct (pool_find (st_p1 s) k); [apply agree_er; discriminate|].
  destruct (pool_find (st_p0 s) k); [apply agree_er; discriminate|].
  eapply (agree_ebind anyr).
  - destruct (cache_find (st_c1 s) _) as [p|] eqn:E.
    + pose proof (cfit_find e _ Hc Hb _ _ _ Hf E) as Hp. rewrite (ck_of_blob_ok e _ Hc Hb p Hp), plift_bind.
      apply (exists_bucket_ok e _ Hc Hb (st_kh s) eq_refl); [exact (pfit_bucket e _ Hc Hb p Hp)].
    + eapply agree_ebind; [apply (read_ok e _ Hc Hb); apply blen_fresh|]. intros b B.
      apply (exists_bucket_ok e _ Hc Hb (st_kh s) eq_refl); [exact B].
  - intros [|] _; [apply agree_er; discriminate|]. apply agree_ok.
    split; [exact Hc|]. split; [exact Hb|]. split; [exact Hf|]. discriminate.
Qed.
Lemma flush_agree e s : iter_ok e -> fits s -> agree fits (ck_store_flush e s) (store_flush e s).
Proof.
  intros Hi H. pose proof H as (Hc & Hb & Hf & He). unfold ck_store_flush, store_flush.
  destruct (pool_is_empty _); [cbn [agree]; auto|].
  destruct (st_ec s) as [er|]; [cbn [agree]; split; [reflexivity|]; split; [exact Hc|]; split; [exact Hb|]; split; [exact Hf|exact He]|].
  eapply (agree_bind (good fits)).
  - intros [s'|er] X; cbn [good] in X; cbn [agree]; split; auto.
    split; [exact Hc|]. split; [exact Hb|]. split; [exact Hf|]. cbn [store_failed st_ec]. congruence.
  - unfold ck_commit, commit. cbv zeta. eapply (agree_ebind anyr).
    { unfold commit_begin. eapply agree_ebind; [apply agree_num|]. intros kfs _. eapply agree_ebind; [apply agree_num|].
      intros dfs _. eapply agree_ebind; [apply agree_unit|]. intros _ _. apply agree_unit. }
    intros _ _. eapply agree_ebind; [apply (commit_data_ok e _ Hc Hb (st_kh s) eq_refl)|]. intros st [C0 C1].
    eapply agree_ebind; [apply (commit_log_ok e _ Hc Hb (st_kh s) eq_refl); [exact Hi|exact C0]|]. intros _ _.
    eapply agree_ebind; [apply (commit_key_ok e _ Hc Hb (st_kh s) eq_refl); apply (cfit_iter e _ Hc Hb); [exact Hi|exact C1]|]. intros _ _.
    eapply (agree_ebind anyr).
    { unfold commit_end. do 3 (eapply agree_ebind; [apply agree_unit|]; intros _ _). apply agree_unit. }
    intros _ _. apply agree_ok. split; [exact Hc|]. split; [exact Hb|]. split; [constructor|]. discriminate.
Qed.

(** open(): what is needed of the header is checked there. *)
Lemma yields_ebind {A B} (p : prog (res A)) (f : A -> prog (res B)) b :
  yields (ebind p f) (Ok b) -> exists a, yields p (Ok a) /\ yields (f a) (Ok b).
Proof.
  unfold ebind. induction p as [[a|er]|o k IH]; cbn [bind]; intros H.
  - exists a. split; [constructor|exact H].
  - inversion H.
  - inversion H as [|? ? r ? Hp Hr]; subst. destruct (IH r Hr) as (a & Y1 & Y2). exists a. split; [|exact Y2].
    apply yields_do with r; assumption.
Qed.
Lemma yields_lift {A} (r : res A) x : yields (plift r) x -> r = x.
Proof. intros H. inversion H. reflexivity. Qed.
Lemma key_header_small kh : yields read_key_header (Ok kh) ->
  kh_block_size kh <= 65535 /\ kh_capacity kh = bucket_capacity (kh_block_size kh).
Proof.
  unfold read_key_header. intros H. apply yields_ebind in H as (b & Hb & H). apply yields_ebind in H as (sz & _ & H).
  inversion H; subst. cbn [dec_key_header kh_block_size kh_capacity]. split; [|reflexivity].
  assert (Hok : blen b = key_hdr_size /\ bytes_ok b).
  { inversion Hb as [|? ? r ? Hp Hr]; subst. destruct r; inversion Hr; subst. apply Hp. }
  destruct Hok as [L Hok]. unfold key_hdr_size in L.
  pose proof (rd16_lt (bsub 44 2 b) (bytes_ok_bsub 44 2 b Hok) ltac:(apply blen_bsub; lia)). lia.
Qed.
Lemma opened_fits e s : yields (store_open e) (Ok s) -> fits s.
Proof.
  unfold store_open. intros H. do 4 (apply yields_ebind in H as (? & _ & H)).
  apply yields_ebind in H as (dh & _ & H). apply yields_ebind in H as (? & _ & H).
  apply yields_ebind in H as (kh & Hk & H). apply key_header_small in Hk as [K1 K2].
  apply yields_ebind in H as (u & Hv & H). apply yields_lift in Hv.
  apply yields_ebind in H as (? & _ & H). cbv zeta in H. destruct (kh_buckets kh <? 1); [inversion H|].
  inversion H; subst. unfold fits. cbn [st_kh st_c1 st_ec]. rewrite <- K2.
  assert (1 <= kh_capacity kh).
  { revert Hv. unfold verify_key. repeat (match goal with |- context [if ?b then _ else _] => destruct b eqn:?; try discriminate end).
    intros _. lia. }
  split; [assumption|]. split; [exact K1|]. split; [constructor|discriminate].
Qed.
Lemma reached_fits e s : iter_ok e -> reached e s -> fits s.
Proof.
  intros Hi. induction 1 as [s H|s k v s' _ IH H|s s' _ IH H].
  - eapply opened_fits; exact H.
  - exact (proj2 (agree_yields _ _ _ (insert_agree e s k v IH) (Ok s')) H).
  - exact (proj2 (agree_yields _ _ _ (flush_agree e s Hi IH) s') H).
Qed.
