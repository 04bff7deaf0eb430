(** The commit: records, inserts, caches, key file. *)
From Verif Require Import Model.Bytes Model.Err Model.Field Model.Format Model.IO
  Model.BulkIO Model.Bucket Model.Pool Model.Store
  Proofs.BytesFacts Proofs.FieldFacts Proofs.IOFacts Proofs.BucketFacts Proofs.BulkFacts
  Proofs.HashFacts Proofs.Table Proofs.Lookup Proofs.SplitFacts.

(** ** Replacing an element of a table *)
Definition setN {A} (l : list A) (n : N) (x : A) : list A := btake n l ++ x :: bdrop (n + 1) l.

Lemma blen_setN {A} (l : list A) n x : n < blen l -> blen (setN l n x) = blen l.
Proof. intros. unfold setN. rewrite blen_app, blen_cons, blen_btake, blen_bdrop. lia. Qed.

Lemma nthN_app_l {A} (a b : list A) n d : n < blen a -> nthN (a ++ b) n d = nthN a n d.
Proof. intros. unfold nthN. apply app_nth1. unfold blen in *; lia. Qed.
Lemma nthN_app_r {A} (a b : list A) n d : blen a <= n -> nthN (a ++ b) n d = nthN b (n - blen a) d.
Proof. intros. unfold nthN. rewrite app_nth2 by (unfold blen in *; lia). f_equal. unfold blen in *; lia. Qed.
Lemma nthN_0 {A} (x : A) l d : nthN (x :: l) 0 d = x.
Proof. reflexivity. Qed.
Lemma nthN_btake {A} (l : list A) n m d : m < n -> nthN (btake n l) m d = nthN l m d.
Proof.
  intros. destruct (N.lt_ge_cases m (blen l)).
  - rewrite <- (btake_bdrop n l) at 2. rewrite nthN_app_l; auto. rewrite blen_btake. lia.
  - unfold nthN. rewrite !nth_overflow; auto; unfold btake, blen in *; rewrite ?firstn_length; lia.
Qed.
Lemma nthN_bdrop {A} (l : list A) n m d : nthN (bdrop n l) m d = nthN l (n + m) d.
Proof.
  destruct (N.lt_ge_cases (n + m) (blen l)).
  - rewrite <- (btake_bdrop n l) at 2. rewrite nthN_app_r; rewrite blen_btake; [f_equal|]; lia.
  - unfold nthN. rewrite !nth_overflow; auto; unfold bdrop, blen in *; rewrite ?skipn_length; lia.
Qed.
Lemma nthN_setN_same {A} (l : list A) n x d : n < blen l -> nthN (setN l n x) n d = x.
Proof.
  intros. unfold setN. rewrite nthN_app_r; rewrite blen_btake; [|lia].
  replace (n - N.min n (blen l)) with 0 by lia. reflexivity.
Qed.
Lemma nthN_setN_other {A} (l : list A) n m x d :
  n < blen l -> m <> n -> nthN (setN l n x) m d = nthN l m d.
Proof.
  intros Hn Hm. unfold setN. destruct (N.lt_ge_cases m n).
  - rewrite nthN_app_l by (rewrite blen_btake; lia). apply nthN_btake; auto.
  - rewrite nthN_app_r by (rewrite blen_btake; lia). rewrite blen_btake.
    replace (m - N.min n (blen l)) with ((m - n - 1) + 1) by lia.
    rewrite nthN_cons, nthN_bdrop. f_equal. lia.
Qed.
Lemma nthN_ext {A} (a b : list A) d :
  blen a = blen b -> (forall i, i < blen a -> nthN a i d = nthN b i d) -> a = b.
Proof.
  intros Hl Hn. apply (nth_ext _ _ d d); [unfold blen in *; lia|].
  intros i Hi. specialize (Hn (N.of_nat i)). unfold nthN, blen in Hn. rewrite Nat2N.id in Hn.
  apply Hn. lia.
Qed.

(** ** Caches *)
Lemma cache_find_set_same c n p : cache_find (cache_set c n p) n = Some p.
Proof.
  induction c as [|[m q] c IH]; simpl; rewrite ?N.eqb_refl; auto.
  destruct (N.eqb_spec m n); simpl; [rewrite N.eqb_refl; auto|].
  destruct (N.eqb_spec m n); [congruence|auto].
Qed.
Lemma cache_find_set_other c n m p : m <> n -> cache_find (cache_set c n p) m = cache_find c m.
Proof.
  intros Hm. induction c as [|[k q] c IH]; simpl.
  - destruct (N.eqb_spec n m); congruence.
  - destruct (N.eqb_spec k n); simpl.
    + subst k. destruct (N.eqb_spec n m); congruence.
    + destruct (N.eqb_spec k m); auto.
Qed.
Lemma cache_find_In c n p : cache_find c n = Some p -> In (n, p) c.
Proof.
  induction c as [|[k q] c IH]; simpl; [discriminate|].
  destruct (N.eqb_spec k n); auto. intros E; injection E; intros; subst; auto.
Qed.
Lemma cache_In_find c n p : NoDup (map fst c) -> In (n, p) c -> cache_find c n = Some p.
Proof.
  induction c as [|[k q] c IH]; simpl; [tauto|]. intros Hnd Hin. inversion Hnd; subst.
  destruct Hin as [E|Hin].
  - injection E; intros; subst. rewrite N.eqb_refl. auto.
  - destruct (N.eqb_spec k n); auto. subst k. exfalso. apply H1.
    apply (in_map fst) in Hin. exact Hin.
Qed.
Lemma cache_find_none c n : cache_find c n = None <-> ~ In n (map fst c).
Proof.
  induction c as [|[k q] c IH]; simpl; [tauto|].
  destruct (N.eqb_spec k n); split; intros X; try discriminate; try tauto.
Qed.
Lemma cache_set_keys c n p : forall m, In m (map fst (cache_set c n p)) <-> m = n \/ In m (map fst c).
Proof.
  induction c as [|[k q] c IH]; intros m; simpl.
  - intuition.
  - destruct (N.eqb_spec k n); simpl.
    + subst. intuition.
    + rewrite IH. intuition.
Qed.
Lemma cache_set_nodup c n p : NoDup (map fst c) -> NoDup (map fst (cache_set c n p)).
Proof.
  induction c as [|[k q] c IH]; simpl; intros Hnd.
  - repeat constructor. simpl; tauto.
  - inversion Hnd; subst. destruct (N.eqb_spec k n); simpl.
    + subst. constructor; auto.
    + constructor; auto. rewrite cache_set_keys. intros [E|E]; auto.
Qed.
Lemma cache_find_perm c c' n :
  NoDup (map fst c) -> Permutation c c' -> cache_find c' n = cache_find c n.
Proof.
  intros Hnd Hp. assert (Hnd' : NoDup (map fst c')).
  { eapply Permutation_NoDup; [apply Permutation_map; eauto|auto]. }
  destruct (cache_find c n) as [p|] eqn:E.
  - apply cache_find_In in E. apply cache_In_find; auto. eapply Permutation_in; eauto.
  - apply cache_find_none. apply cache_find_none in E. intros X. apply E.
    eapply Permutation_in; [|exact X]. apply Permutation_map, Permutation_sym; auto.
Qed.

(** ** The key file *)
Definition kblock (bs : N) (b : bent) : bytes := enc_block bs (fst b) (snd b).
Definition kfile (bs : N) (kb : bytes) (T : list bent) : bytes := kb ++ flat_map (kblock bs) T.

Lemma blen_concat_blocks {A} (f : A -> bytes) bs l :
  (forall x, In x l -> blen (f x) = bs) -> blen (flat_map f l) = blen l * bs.
Proof.
  induction l as [|x l IH]; intros Hf; simpl; [reflexivity|].
  rewrite blen_app, blen_cons, IH by (intros; apply Hf; simpl; auto).
  rewrite (Hf x) by (simpl; auto). lia.
Qed.

Lemma flat_map_nthN {A} (f : A -> bytes) bs l n d :
  (forall x, In x l -> blen (f x) = bs) -> n < blen l ->
  bsub (n * bs) bs (flat_map f l) = f (nthN l n d).
Proof.
  intros Hf Hn.
  assert (E : l = btake n l ++ nthN l n d :: bdrop (n + 1) l).
  { rewrite <- (bdrop_nth n l d Hn). symmetry. apply btake_bdrop. }
  rewrite E at 1. rewrite flat_map_app. simpl.
  assert (Hin : forall x, In x (btake n l) -> In x l).
  { intros x Hx. rewrite <- (btake_bdrop n l). apply in_app_iff; auto. }
  apply bsub_app_eq.
  - rewrite (blen_concat_blocks f bs) by auto. rewrite blen_btake. f_equal. lia.
  - symmetry. apply Hf, nthN_In; auto.
Qed.

(** Blocks fit. *)
Definition fits (bs : N) (b : bent) : Prop := bucket_size (blen (fst b)) <= bs.

Lemma blen_kfile bs kb T : blen kb = bs -> Forall (fits bs) T -> blen (kfile bs kb T) = (blen T + 1) * bs.
Proof.
  intros Hk Hf. unfold kfile. rewrite blen_app, (blen_concat_blocks _ bs); [lia|].
  intros x Hx. rewrite Forall_forall in Hf. apply blen_enc_block. apply Hf; auto.
Qed.

Lemma kfile_block bs kb T n :
  blen kb = bs -> Forall (fits bs) T -> n < blen T ->
  (n + 1) * bs + bs <= blen (kfile bs kb T) /\
  bsub ((n + 1) * bs) bs (kfile bs kb T) = kblock bs (nthN T n ([], 0)).
Proof.
  intros Hk Hf Hn. split.
  - rewrite blen_kfile by auto. nia.
  - unfold kfile. rewrite bsub_app_r by nia. replace ((n + 1) * bs - blen kb) with (n * bs) by nia.
    apply flat_map_nthN; auto.
    intros x Hx. rewrite Forall_forall in Hf. apply blen_enc_block. apply Hf; auto.
Qed.

(** Writing a block of an image made of blocks; missing blocks become zeros. *)
Definition gset (bs : N) (L : list bytes) (n : N) (blk : bytes) : list bytes :=
  setN (L ++ repeat (zeros bs) (N.to_nat (n + 1 - blen L))) n blk.

Lemma blen_repeat {A} (x : A) n : blen (repeat x n) = N.of_nat n.
Proof. unfold blen. rewrite repeat_length. auto. Qed.

Lemma blen_gset bs L n blk : blen (gset bs L n blk) = N.max (blen L) (n + 1).
Proof.
  unfold gset. rewrite blen_setN; rewrite blen_app, blen_repeat; lia.
Qed.

Lemma nthN_gset bs L n blk m d :
  nthN (gset bs L n blk) m d =
  if m =? n then blk else if m <? blen L then nthN L m d
  else if m <? n then zeros bs else d.
Proof.
  unfold gset. set (r := repeat _ _).
  assert (Hn : n < blen (L ++ r)) by (unfold r; rewrite blen_app, blen_repeat; lia).
  destruct (N.eqb_spec m n) as [->|Hm]; [apply nthN_setN_same; auto|].
  rewrite nthN_setN_other by auto.
  destruct (N.ltb_spec m (blen L)); [apply nthN_app_l; auto|].
  rewrite nthN_app_r by auto. destruct (N.ltb_spec m n).
  - assert (Hin : In (nthN r (m - blen L) d) r).
    { apply nthN_In. unfold r. rewrite blen_repeat. lia. }
    apply repeat_spec in Hin. auto.
  - unfold nthN. apply nth_overflow. unfold r. rewrite repeat_length. lia.
Qed.

Lemma concat_repeat_zeros bs n : concat (repeat (zeros bs) n) = zeros (N.of_nat n * bs).
Proof.
  induction n as [|n IH]; [reflexivity|]. simpl repeat. simpl concat.
  rewrite IH, zeros_app. f_equal. lia.
Qed.

Lemma concat_flat (L : list bytes) : concat L = flat_map (fun x => x) L.
Proof. rewrite flat_map_concat_map, map_id. auto. Qed.

Lemma blen_concat bs (L : list bytes) :
  Forall (fun x => blen x = bs) L -> blen (concat L) = blen L * bs.
Proof.
  intros HL. rewrite concat_flat. apply blen_concat_blocks. rewrite Forall_forall in HL. auto.
Qed.

Lemma gset_Forall bs L n blk :
  Forall (fun x => blen x = bs) L -> blen blk = bs -> Forall (fun x => blen x = bs) (gset bs L n blk).
Proof.
  intros HL Hb. unfold gset, setN.
  assert (X : Forall (fun x => blen x = bs) (L ++ repeat (zeros bs) (N.to_nat (n + 1 - blen L)))).
  { apply Forall_app. split; auto. rewrite Forall_forall. intros x Hx.
    apply repeat_spec in Hx. subst. apply blen_zeros. }
  rewrite Forall_forall in *. intros x Hx. apply in_app_iff in Hx as [Hx|[->|Hx]]; auto.
  - apply X. rewrite <- (btake_bdrop n (L ++ _)). apply in_app_iff; auto.
  - apply X. eapply In_bdrop; eauto.
Qed.

Lemma gap_aux n l bs : l <= n -> (n + 1 - l) * bs = (n + 1) * bs - (l + 1) * bs + bs.
Proof.
  intros. replace n with (l + (n - l)) by lia. generalize (n - l). intros k.
  replace (l + k + 1 - l) with (k + 1) by lia.
  replace ((l + k + 1) * bs) with ((l + 1) * bs + k * bs) by lia. lia.
Qed.

Lemma bwrite_gset bs kb L n blk :
  blen kb = bs -> Forall (fun x => blen x = bs) L -> blen blk = bs ->
  bwrite ((n + 1) * bs) blk (kb ++ concat L) = kb ++ concat (gset bs L n blk).
Proof.
  intros Hk HL Hb. unfold bwrite.
  set (m := n + 1 - blen L).
  set (L' := L ++ repeat (zeros bs) (N.to_nat m)).
  assert (HL' : Forall (fun x => blen x = bs) L').
  { apply Forall_app. split; auto. rewrite Forall_forall. intros x Hx.
    apply repeat_spec in Hx. subst. apply blen_zeros. }
  assert (Hn : n < blen L') by (unfold L', m; rewrite blen_app, blen_repeat; blia).
  assert (Hlen : blen (kb ++ concat L) = (blen L + 1) * bs)
    by (rewrite blen_app, (blen_concat bs), Hk by auto; blia).
  (* the gap only reaches the start of the written block *)
  assert (E : exists z, kb ++ concat L' = ((kb ++ concat L) ++ zeros ((n + 1) * bs - blen (kb ++ concat L))) ++ z
      /\ (z = [] \/ (blen L <= n /\ z = zeros bs))).
  { unfold L'. rewrite concat_app, concat_repeat_zeros, Hlen. rewrite app_assoc.
    destruct (N.lt_ge_cases n (blen L)) as [Hlt|Hge].
    - exists []. replace m with 0 by blia. replace ((n + 1) * bs - (blen L + 1) * bs) with 0 by bnia.
      simpl. rewrite !app_nil_r. auto.
    - exists (zeros bs). split; [|right; auto]. rewrite <- (app_assoc _ (zeros _) (zeros _)), zeros_app. f_equal. f_equal.
      unfold m. rewrite N2Nat.id. apply gap_aux; auto. }
  destruct E as (z & E & Hz).
  assert (Esplit : L' = btake n L' ++ nthN L' n [] :: bdrop (n + 1) L').
  { rewrite <- (bdrop_nth n L' [] Hn). symmetry. apply btake_bdrop. }
  assert (Hblk : blen (nthN L' n []) = bs).
  { rewrite Forall_forall in HL'. apply HL', nthN_In; auto. }
  assert (Hpre : blen (kb ++ concat (btake n L')) = (n + 1) * bs).
  { rewrite blen_app, (blen_concat bs), blen_btake; [bnia|].
    rewrite Forall_forall in *. intros x Hx. apply HL'. rewrite <- (btake_bdrop n L'). apply in_app_iff; auto. }
  assert (Hc : kb ++ concat L' =
     (kb ++ concat (btake n L')) ++ nthN L' n [] ++ concat (bdrop (n + 1) L')).
  { rewrite Esplit at 1. rewrite concat_app. simpl concat. rewrite <- app_assoc. auto. }
  set (F := (kb ++ concat L) ++ zeros ((n + 1) * bs - blen (kb ++ concat L))) in *.
  unfold gset, setN. fold m. fold L'. rewrite concat_app. simpl concat.
  assert (HF : (n + 1) * bs <= blen F) by (unfold F; rewrite blen_app, blen_zeros; blia).
  assert (Ht : btake ((n + 1) * bs) F = kb ++ concat (btake n L')).
  { assert (X : btake ((n + 1) * bs) (F ++ z) = btake ((n + 1) * bs) F) by (apply btake_app_l; auto).
    rewrite <- X, <- E, Hc. apply btake_app_eq. auto. }
  assert (Hd : bdrop ((n + 1) * bs + blen blk) F = concat (bdrop (n + 1) L')).
  { assert (X : bdrop ((n + 1) * bs + blen blk) (F ++ z) = concat (bdrop (n + 1) L')).
    { rewrite <- E, Hc. rewrite app_assoc. apply bdrop_app_eq. rewrite blen_app, Hpre, Hblk. blia. }
    destruct Hz as [->|[Hge ->]]; [rewrite app_nil_r in X; auto|].
    assert (HFl : blen F = (n + 1) * bs) by (unfold F; rewrite blen_app, blen_zeros; bnia).
    rewrite bdrop_all by blia.
    symmetry. apply blen_0. rewrite <- X, blen_bdrop, blen_app, blen_zeros. blia. }
  rewrite Ht, Hd, <- app_assoc. auto.
Qed.

Fixpoint gsets (bs : N) (L : list bytes) (c : cache) : list bytes :=
  match c with
  | [] => L
  | (n, p) :: c' => gsets bs (gset bs L n (bk_padded (bk_of_blob p))) c'
  end.

Lemma commit_key_run bs kb c : forall L w,
  blen kb = bs -> Forall (fun x => blen x = bs) L ->
  (forall n p, In (n, p) c -> blen (bk_padded (bk_of_blob p)) = bs) ->
  wget w FKey = Some (kb ++ concat L) ->
  run (commit_key bs c) w = (wset w FKey (Some (kb ++ concat (gsets bs L c))), Ok tt).
Proof.
  induction c as [|[n p] c IH]; intros L w Hk HL Hc Hw; cbn [commit_key gsets].
  - rewrite <- Hw, wset_same. reflexivity.
  - unfold bk_write. erewrite run_ebind_ok by (apply run_write; eauto).
    rewrite bwrite_gset by (auto; apply (Hc n p); simpl; auto).
    rewrite (IH (gset bs L n (bk_padded (bk_of_blob p)))).
    + rewrite wset_wset. auto.
    + auto.
    + apply gset_Forall; auto. apply (Hc n p); simpl; auto.
    + intros; eapply Hc; right; eauto.
    + apply wget_wset_same.
Qed.

Lemma gsets_len bs c : forall L,
  blen L <= blen (gsets bs L c) /\ (forall n p, In (n, p) c -> n < blen (gsets bs L c)) /\
  (forall B, blen L <= B -> (forall n p, In (n, p) c -> n < B) -> blen (gsets bs L c) <= B).
Proof.
  induction c as [|[n p] c IH]; intros L; simpl.
  - splits; auto; try lia; tauto.
  - destruct (IH (gset bs L n (bk_padded (bk_of_blob p)))) as (H1 & H2 & H3).
    rewrite blen_gset in H1. splits; try lia.
    + intros m q [E|Hin]; [injection E; intros; subst; lia|eauto].
    + intros B HB Hc. apply H3.
      * rewrite blen_gset. specialize (Hc n p (or_introl eq_refl)). lia.
      * intros; eapply Hc; right; eauto.
Qed.

Lemma gsets_nth bs c d : forall L m,
  NoDup (map fst c) -> m < blen (gsets bs L c) ->
  nthN (gsets bs L c) m d =
  match cache_find c m with
  | Some p => bk_padded (bk_of_blob p)
  | None => if m <? blen L then nthN L m d else zeros bs
  end.
Proof.
  induction c as [|[n p] c IH]; intros L m Hnd Hm; simpl in *.
  - destruct (N.ltb_spec m (blen L)); [auto|lia].
  - inversion Hnd; subst. rewrite IH by auto. rewrite nthN_gset, blen_gset.
    rewrite N.eqb_sym. destruct (N.eqb_spec n m) as [->|Hne].
    + assert (X : cache_find c m = None) by (apply cache_find_none; auto). rewrite X.
      replace (m <? N.max (blen L) (m + 1)) with true by lia. auto.
    + destruct (cache_find c m); auto.
      destruct (N.ltb_spec m (blen L)).
      * replace (m <? N.max (blen L) (n + 1)) with true by lia. auto.
      * destruct (N.ltb_spec m (N.max (blen L) (n + 1))); auto.
        replace (m <? n) with true by lia. auto.
Qed.
