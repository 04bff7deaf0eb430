(** The pools and caches in memory. *)
From Verif Require Import Model.Bytes Model.Err Model.Arena Model.PoolMem SpecArena SpecPoolMem
  Proofs.BytesFacts Proofs.ArenaFacts.
From Coq Require Import Sorting.Sorted.

(** Bytes of memory. *)
Lemma blen_peek b p n : blen (peek b p n) = n.
Proof. unfold peek. rewrite blen_map. unfold blen. rewrite seq_length. lia. Qed.

Lemma peek_ext b b' p n : (forall a, p <= a -> a < p + n -> b' a = b a) -> peek b' p n = peek b p n.
Proof.
  intros H. unfold peek. apply map_ext_in. intros k Hk. apply in_seq in Hk. apply H; lia.
Qed.

Lemma peek_app b p n m : peek b p (n + m) = peek b p n ++ peek b (p + n) m.
Proof.
  unfold peek. replace (N.to_nat (n + m)) with (N.to_nat n + N.to_nat m)%nat by lia.
  rewrite seq_app, map_app. f_equal. cbn [plus].
  assert (G : forall q z, seq (N.to_nat n + z) q = map (fun k => (N.to_nat n + k)%nat) (seq z q)).
  { induction q as [|q IH]; intros z; [reflexivity|]. cbn [seq map]. f_equal.
    rewrite <- IH. f_equal. lia. }
  specialize (G (N.to_nat m) 0%nat). rewrite Nat.add_0_r in G. rewrite G, map_map.
  apply map_ext. intros k. f_equal. lia.
Qed.

Lemma peek_poke_other b p d q n : q + n <= p \/ p + blen d <= q ->
  peek (poke b p d) q n = peek b q n.
Proof.
  intros H. apply peek_ext. intros a H1 H2. unfold poke.
  destruct (p <=? a) eqn:E1; [|reflexivity]. destruct (a <? p + blen d) eqn:E2; [|reflexivity].
  apply N.leb_le in E1. apply N.ltb_lt in E2. lia.
Qed.

Lemma peek_poke_same b p d : peek (poke b p d) p (blen d) = d.
Proof.
  unfold peek. apply (nth_ext _ _ 0 0).
  - rewrite map_length, seq_length. unfold blen. lia.
  - rewrite map_length, seq_length. intros k Hk.
    rewrite (nth_indep _ 0 ((fun k => poke b p d (p + N.of_nat k)) 0%nat))
      by (rewrite map_length, seq_length; exact Hk).
    rewrite (map_nth (fun k => poke b p d (p + N.of_nat k))).
    rewrite seq_nth by exact Hk. unfold poke.
    replace (p <=? p + N.of_nat (0 + k)) with true by (symmetry; apply N.leb_le; lia).
    replace (p + N.of_nat (0 + k) <? p + blen d) with true by (symmetry; apply N.ltb_lt; lia).
    cbn [andb]. unfold nthN. f_equal. lia.
Qed.

Lemma peek_poke_in b p off d n : off + blen d <= n ->
  peek (poke b (p + off) d) p n = bwrite off d (peek b p n).
Proof.
  intros H. replace n with (off + (blen d + (n - off - blen d))) by lia.
  rewrite !peek_app. rewrite bwrite_app3 by (rewrite ?blen_peek; lia).
  rewrite peek_poke_same. f_equal; [|f_equal]; apply peek_poke_other; lia.
Qed.

Lemma peek_poke_front b p d n : blen d <= n ->
  peek (poke b p d) p n = d ++ peek b (p + blen d) (n - blen d).
Proof.
  intros H. replace n with (blen d + (n - blen d)) at 1 by lia. rewrite peek_app, peek_poke_same.
  f_equal. apply peek_poke_other. lia.
Qed.

Lemma upd_same {A} (f : N -> A) i x : upd f i x i = x.
Proof. unfold upd. rewrite N.eqb_refl. reflexivity. Qed.
Lemma upd_other {A} (f : N -> A) i x j : j <> i -> upd f i x j = f j.
Proof. intros H. unfold upd. apply N.eqb_neq in H. rewrite H. reflexivity. Qed.

Section F.
Variables ks bs : N.
Hypothesis Hks : 0 < ks.
Hypothesis Hkz : size_sane ks.
Hypothesis Hbs : 0 < bs.
Hypothesis Hbz : size_sane bs.

Definition key_of (b : N -> N) (x : pnode) : bytes := peek b (pn_key x) ks.
Definition data_of (b : N -> N) (x : pnode) : bytes := peek b (pn_data x) (pn_size x).
Definition below (b : N -> N) (x y : pnode) : Prop := blt (key_of b x) (key_of b y) = true.

Record minv (s : mst) (l : lives) : Prop := {
  mi_a : ainv (ms_mem s) l;
  mi_p : forall i x, In x (ms_pool s i) ->
           In (2 * i, (pn_key x, ks)) l /\ In (2 * i, (pn_data x, pn_size x)) l;
  mi_s : forall i, StronglySorted (below (ms_byte s)) (ms_pool s i);
  mi_c : forall i n p, In (n, p) (ms_cache s i) -> In (2 * i + 1, (p, bs)) l;
  mi_n : forall i, NoDup (map snd (ms_cache s i)) }.

(** Live regions can be accessed. *)
Lemma live_mapped m l i p n off len : ainv m l -> In (i, (p, n)) l -> off + len <= n ->
  mapped (m_heap m) (p + off) len = true.
Proof.
  intros I H Hl. destruct (ainv_inside m l I _ H) as (b & Hb & H1 & H2 & _). cbn [fst snd] in *.
  unfold mapped. apply existsb_exists. exists b. split; [exact Hb|].
  apply andb_true_intro. split; apply N.leb_le; lia.
Qed.

Lemma live_load s l i p n : ainv (ms_mem s) l -> In (i, (p, n)) l ->
  load s p n = Ok (peek (ms_byte s) p n).
Proof.
  intros I H. unfold load. replace p with (p + 0) at 1 by lia.
  rewrite (live_mapped _ l i p n 0 n I H) by lia. reflexivity.
Qed.

Lemma live_store s l i p n off d : ainv (ms_mem s) l -> In (i, (p, n)) l -> off + blen d <= n ->
  store s (p + off) d =
    Ok (MSt (ms_mem s) (poke (ms_byte s) (p + off) d) (ms_pool s) (ms_size s) (ms_cache s)).
Proof.
  intros I H Hl. unfold store. rewrite (live_mapped _ l i p n off (blen d) I H Hl). reflexivity.
Qed.

Lemma live_store0 s l i p n d : ainv (ms_mem s) l -> In (i, (p, n)) l -> blen d <= n ->
  store s p d =
    Ok (MSt (ms_mem s) (poke (ms_byte s) p d) (ms_pool s) (ms_size s) (ms_cache s)).
Proof.
  intros I H Hl. pose proof (live_store s l i p n 0 d I H) as E. rewrite !N.add_0_r in E.
  apply E. lia.
Qed.

(** Distinct live regions share no byte. *)
Lemma live_apart m l x y : ainv m l -> In x l -> In y l -> x = y \/ disjoint (snd x) (snd y).
Proof.
  intros I Hx Hy.
  apply (pairwise_In (fun x y => disjoint (snd x) (snd y)) l); auto.
  - intros a b. apply disjoint_sym.
  - exact (ai_pair _ _ I).
Qed.

(** Finding a node, without failing accesses. *)
Fixpoint pfind (b : N -> N) (l : list pnode) (k : bytes) : option pnode :=
  match l with
  | [] => None
  | x :: l' => if blt (key_of b x) k then pfind b l' k
               else if blt k (key_of b x) then None else Some x
  end.

Definition pview (b : N -> N) (l : list pnode) (k : bytes) : option (N * bytes) :=
  match pfind b l k with None => None | Some x => Some (pn_hash x, data_of b x) end.
Definition cview (b : N -> N) (c : list (N * N)) (n : N) : option bytes :=
  match idx_find c n with None => None | Some p => Some (peek b p bs) end.

Lemma pfind_In b l k x : pfind b l k = Some x -> In x l.
Proof.
  induction l as [|y l IH]; [discriminate|]. cbn [pfind].
  destruct (blt (key_of b y) k); [right; auto|]. destruct (blt k (key_of b y)); [discriminate|].
  intros E. injection E as ->. left. reflexivity.
Qed.

Lemma idx_find_In c n p : idx_find c n = Some p -> In (n, p) c.
Proof.
  induction c as [|[m q] c IH]; [discriminate|]. cbn [idx_find].
  destruct (N.eqb_spec m n) as [->|H]; [intros E; injection E as ->; left; reflexivity|right; auto].
Qed.

Lemma node_find_ok s k l : (forall x, In x l -> load s (pn_key x) ks = Ok (key_of (ms_byte s) x)) ->
  node_find ks s l k = Ok (pfind (ms_byte s) l k).
Proof.
  induction l as [|x l IH]; intros H; [reflexivity|]. cbn [node_find pfind].
  rewrite (H x) by (left; reflexivity). cbn [rbind].
  destruct (blt (key_of (ms_byte s) x) k).
  - apply IH. intros y Hy. apply H. right. exact Hy.
  - destruct (blt k (key_of (ms_byte s) x)); reflexivity.
Qed.

Lemma find_ok s l i k : minv s l ->
  mp_find ks s i k =
    Ok (s, match pview (ms_byte s) (ms_pool s i) k with None => AMiss | Some (h, d) => APair h d end).
Proof.
  intros I. unfold mp_find, pview. rewrite node_find_ok.
  - cbn [rbind]. destruct (pfind _ _ _) as [x|] eqn:E; [|reflexivity].
    apply pfind_In in E. destruct (mi_p _ _ I i x E) as [_ H].
    rewrite (live_load s l _ _ _ (mi_a _ _ I) H). reflexivity.
  - intros x Hx. destruct (mi_p _ _ I i x Hx) as [H _].
    apply (live_load s l _ _ _ (mi_a _ _ I) H).
Qed.

Lemma cfind_ok s l i n : minv s l ->
  mc_find bs s i n =
    Ok (s, match cview (ms_byte s) (ms_cache s i) n with None => AMiss | Some d => ABlock d end).
Proof.
  intros I. unfold mc_find, cview. destruct (idx_find _ _) as [p|] eqn:E; [|reflexivity].
  apply idx_find_In in E. rewrite (live_load s l _ _ _ (mi_a _ _ I) (mi_c _ _ I i n p E)). reflexivity.
Qed.

Lemma sees_pair_view s l i k : minv s l ->
  forall r, sees_pair ks bs s i k r <-> r = pview (ms_byte s) (ms_pool s i) k.
Proof.
  intros I r. unfold sees_pair. cbn [mstep]. rewrite (find_ok s l i k I). split; intros H.
  - injection H as H. destruct (pview _ _ _) as [[h d]|], r as [[h' d']|]; congruence.
  - subst r. reflexivity.
Qed.

Lemma sees_block_view s l i n : minv s l ->
  forall r, sees_block ks bs s i n r <-> r = cview (ms_byte s) (ms_cache s i) n.
Proof.
  intros I r. unfold sees_block. cbn [mstep]. rewrite (cfind_ok s l i n I). split; intros H.
  - injection H as H. destruct (cview _ _ _) as [d|], r as [d'|]; congruence.
  - subst r. reflexivity.
Qed.

Lemma sees_size_view s i n : sees_size ks bs s i n <-> n = ms_size s i.
Proof.
  unfold sees_size. cbn [mstep]. unfold mp_size. split; intros H; [injection H as H|subst n]; congruence.
Qed.

(** What is seen depends on the bytes of live regions only. *)
Definition agree (l : lives) (b b' : N -> N) : Prop :=
  forall i p n, In (i, (p, n)) l -> peek b' p n = peek b p n.

Lemma pfind_ext b b' k l : (forall x, In x l -> key_of b' x = key_of b x) -> pfind b' l k = pfind b l k.
Proof.
  induction l as [|x l IH]; intros H; [reflexivity|]. cbn [pfind].
  rewrite (H x) by (left; reflexivity). rewrite IH by (intros y Hy; apply H; right; exact Hy). reflexivity.
Qed.

Lemma pview_agree s l b' i k : minv s l -> agree l (ms_byte s) b' ->
  pview b' (ms_pool s i) k = pview (ms_byte s) (ms_pool s i) k.
Proof.
  intros I A. unfold pview. rewrite (pfind_ext (ms_byte s) b').
  - destruct (pfind _ _ _) as [x|] eqn:E; [|reflexivity]. apply pfind_In in E.
    destruct (mi_p _ _ I i x E) as [_ H]. unfold data_of. rewrite (A _ _ _ H). reflexivity.
  - intros x Hx. destruct (mi_p _ _ I i x Hx) as [H _]. apply (A _ _ _ H).
Qed.

Lemma cview_agree s l b' i n : minv s l -> agree l (ms_byte s) b' ->
  cview b' (ms_cache s i) n = cview (ms_byte s) (ms_cache s i) n.
Proof.
  intros I A. unfold cview. destruct (idx_find _ _) as [p|] eqn:E; [|reflexivity].
  apply idx_find_In in E. rewrite (A _ _ _ (mi_c _ _ I i n p E)). reflexivity.
Qed.

Lemma sorted_agree s l b' i : minv s l -> agree l (ms_byte s) b' ->
  StronglySorted (below b') (ms_pool s i).
Proof.
  intros I A. pose proof (mi_s _ _ I i) as S.
  assert (K : forall x, In x (ms_pool s i) -> key_of b' x = key_of (ms_byte s) x).
  { intros x Hx. destruct (mi_p _ _ I i x Hx) as [H _]. apply (A _ _ _ H). }
  induction S as [|x q S IH F]; constructor.
  - apply IH. intros y Hy. apply K. right. exact Hy.
  - rewrite Forall_forall in *. intros y Hy. unfold below.
    rewrite (K x) by (left; reflexivity). rewrite (K y) by (right; exact Hy). apply F. exact Hy.
Qed.

Lemma minv_frame s l m' b' l' sz : minv s l -> ainv m' l' -> (forall x, In x l -> In x l') ->
  agree l (ms_byte s) b' -> minv (MSt m' b' (ms_pool s) sz (ms_cache s)) l'.
Proof.
  intros I A S G. constructor; cbn [ms_mem ms_byte ms_pool ms_cache].
  - exact A.
  - intros i x Hx. destruct (mi_p _ _ I i x Hx) as [H1 H2]. auto.
  - intros i. apply (sorted_agree s l); assumption.
  - intros i n p H. apply S. apply (mi_c _ _ I i n p H).
  - apply (mi_n _ _ I).
Qed.

(** The three parts of what can be seen. *)
Lemma pairs_view s l s' l' f (P : N -> bytes -> Prop) : minv s l -> minv s' l' ->
  (forall i k, P i k -> pview (ms_byte s') (ms_pool s' i) k = pview (ms_byte s) (ms_pool s (f i)) k) ->
  pairs_from ks bs f P s s'.
Proof.
  intros I I' H i k r Hp E. apply (sees_pair_view s l _ _ I) in E.
  apply (sees_pair_view s' l' _ _ I'). rewrite H by exact Hp. exact E.
Qed.

Lemma blocks_view s l s' l' f (P : N -> N -> Prop) : minv s l -> minv s' l' ->
  (forall i n, P i n -> cview (ms_byte s') (ms_cache s' i) n = cview (ms_byte s) (ms_cache s (f i)) n) ->
  blocks_from ks bs f P s s'.
Proof.
  intros I I' H i n r Hp E. apply (sees_block_view s l _ _ I) in E.
  apply (sees_block_view s' l' _ _ I'). rewrite H by exact Hp. exact E.
Qed.

Lemma sizes_view s s' f (P : N -> Prop) : (forall i, P i -> ms_size s' i = ms_size s (f i)) ->
  sizes_from ks bs f P s s'.
Proof.
  intros H i n Hp E. apply sees_size_view in E. apply sees_size_view. rewrite H by exact Hp. exact E.
Qed.

Lemma unchanged_frame s l m' b' l' : minv s l -> ainv m' l' -> (forall x, In x l -> In x l') ->
  agree l (ms_byte s) b' ->
  minv (MSt m' b' (ms_pool s) (ms_size s) (ms_cache s)) l' /\
  unchanged ks bs s (MSt m' b' (ms_pool s) (ms_size s) (ms_cache s)).
Proof.
  intros I A S G.
  assert (I' := minv_frame s l m' b' l' (ms_size s) I A S G).
  split; [exact I'|]. split; [|split].
  - apply (pairs_view s l _ l' same all2 I I'). intros i k _. cbn [ms_byte ms_pool]. apply (pview_agree s l); assumption.
  - apply sizes_view. reflexivity.
  - apply (blocks_view s l _ l' same all2 I I'). intros i k _. cbn [ms_byte ms_cache]. apply (cview_agree s l); assumption.
Qed.

Lemma agree_refl l b : agree l b b.
Proof. intros i p n _. reflexivity. Qed.

Lemma agree_poke l b b' q d : agree l b b' ->
  (forall i p n, In (i, (p, n)) l -> p + n <= q \/ q + blen d <= p) -> agree l b (poke b' q d).
Proof.
  intros A H i p n Hi. rewrite peek_poke_other by (apply (H i); exact Hi). apply (A i); exact Hi.
Qed.

(** A fresh region shares no byte with the live ones. *)
Lemma fresh_apart m x l : ainv m (x :: l) -> forall i p n, In (i, (p, n)) l ->
  p + n <= fst (snd x) \/ fst (snd x) + snd (snd x) <= p.
Proof.
  intros I i p n H. pose proof (ai_pair _ _ I) as P. cbn [pairwise] in P. destruct P as [P _].
  specialize (P _ H). unfold disjoint in P. cbn [fst snd] in P. lia.
Qed.

(** Inserting a node. *)
Fixpoint pins (b : N -> N) (l : list pnode) (x : pnode) : list pnode * bool :=
  match l with
  | [] => ([x], true)
  | y :: l' =>
    if blt (key_of b x) (key_of b y) then (x :: l, true)
    else if blt (key_of b y) (key_of b x) then (y :: fst (pins b l' x), snd (pins b l' x))
    else (l, false)
  end.

Lemma node_insert_ok s x l : load s (pn_key x) ks = Ok (key_of (ms_byte s) x) ->
  (forall y, In y l -> load s (pn_key y) ks = Ok (key_of (ms_byte s) y)) ->
  node_insert ks s l x = Ok (pins (ms_byte s) l x).
Proof.
  intros Hx. induction l as [|y l IH]; intros H; [reflexivity|]. cbn [node_insert pins].
  rewrite Hx. cbn [rbind]. rewrite (H y) by (left; reflexivity). cbn [rbind].
  destruct (blt (key_of _ x) (key_of _ y)); [reflexivity|].
  destruct (blt (key_of _ y) (key_of _ x)); [|reflexivity].
  rewrite IH by (intros z Hz; apply H; right; exact Hz). cbn [rbind].
  destruct (pins _ l x). reflexivity.
Qed.

Lemma pins_In b x l y : snd (pins b l x) = true -> (In y (fst (pins b l x)) <-> y = x \/ In y l).
Proof.
  induction l as [|z l IH]; cbn [pins].
  - intros _. cbn [fst In]. intuition.
  - destruct (blt (key_of b x) (key_of b z)).
    + intros _. cbn [fst In]. intuition.
    + destruct (blt (key_of b z) (key_of b x)); cbn [fst snd]; [|discriminate].
      intros H. cbn [In]. rewrite (IH H). intuition.
Qed.

Lemma pins_sorted b x l : StronglySorted (below b) l -> snd (pins b l x) = true ->
  StronglySorted (below b) (fst (pins b l x)).
Proof.
  induction 1 as [|z l S IH F]; cbn [pins].
  - intros _. repeat constructor.
  - destruct (blt (key_of b x) (key_of b z)) eqn:E1.
    + intros _. cbn [fst]. constructor; [constructor; assumption|]. constructor; [exact E1|].
      rewrite Forall_forall in *. intros y Hy. unfold below in *.
      apply (blt_trans _ (key_of b z)); [exact E1|apply F; exact Hy].
    + destruct (blt (key_of b z) (key_of b x)) eqn:E2; cbn [fst snd]; [|discriminate].
      intros H. constructor; [apply IH; exact H|]. rewrite Forall_forall in *. intros y Hy.
      apply (pins_In b x l y H) in Hy. destruct Hy as [->|Hy]; [exact E2|apply F; exact Hy].
Qed.

Lemma pins_found b x l : snd (pins b l x) = match pfind b l (key_of b x) with None => true | Some _ => false end.
Proof.
  induction l as [|z l IH]; [reflexivity|]. cbn [pins pfind].
  destruct (blt (key_of b x) (key_of b z)) eqn:E1.
  - destruct (blt (key_of b z) (key_of b x)) eqn:E2; [|reflexivity].
    pose proof (blt_trans _ _ _ E1 E2) as E. rewrite blt_irrefl in E. discriminate.
  - destruct (blt (key_of b z) (key_of b x)) eqn:E2; cbn [snd]; [exact IH|reflexivity].
Qed.

Lemma pfind_above b l k z : StronglySorted (below b) l -> Forall (below b z) l ->
  blt k (key_of b z) = true -> pfind b l k = None.
Proof.
  intros S F H. destruct l as [|y l]; [reflexivity|]. cbn [pfind].
  inversion F as [|? ? F1 F2]; subst. unfold below in F1.
  pose proof (blt_trans _ _ _ H F1) as E. rewrite E.
  destruct (blt (key_of b y) k) eqn:E2; [|reflexivity].
  pose proof (blt_trans _ _ _ E E2) as E3. rewrite blt_irrefl in E3. discriminate.
Qed.

Lemma pfind_pins b x l k : StronglySorted (below b) l -> snd (pins b l x) = true ->
  pfind b (fst (pins b l x)) k = if beq k (key_of b x) then Some x else pfind b l k.
Proof.
  assert (X : forall kx q, blt kx k = false -> blt k kx = false ->
    Some x = if beq k kx then Some x else q).
  { intros kx q E1 E2. rewrite (blt_total _ _ E1 E2), beq_refl. reflexivity. }
  assert (Y : forall kx, blt kx k = true \/ blt k kx = true -> beq k kx = false).
  { intros kx H. apply beq_neq. intros ->. rewrite blt_irrefl in H. destruct H; discriminate. }
  induction 1 as [|z l S IH F]; cbn [pins].
  - intros _. cbn [fst pfind]. destruct (blt (key_of b x) k) eqn:E1.
    + rewrite Y by auto. reflexivity.
    + destruct (blt k (key_of b x)) eqn:E2; [rewrite Y by auto; reflexivity|apply X; assumption].
  - destruct (blt (key_of b x) (key_of b z)) eqn:E1.
    + intros _. cbn [fst]. cbn [pfind]. destruct (blt (key_of b x) k) eqn:E2.
      * rewrite Y by auto. reflexivity.
      * destruct (blt k (key_of b x)) eqn:E3; [|apply X; assumption].
        rewrite Y by auto. pose proof (blt_trans _ _ _ E3 E1) as E. rewrite E.
        destruct (blt (key_of b z) k) eqn:E4; [|reflexivity].
        pose proof (blt_trans _ _ _ E E4) as E5. rewrite blt_irrefl in E5. discriminate.
    + destruct (blt (key_of b z) (key_of b x)) eqn:E2; cbn [fst snd]; [|discriminate].
      intros H. cbn [pfind]. destruct (blt (key_of b z) k) eqn:E3; [apply IH; exact H|].
      assert (E4 : blt k (key_of b x) = true).
      { destruct (blt k (key_of b z)) eqn:E4; [apply (blt_trans _ _ _ E4 E2)|].
        rewrite <- (blt_total _ _ E3 E4). exact E2. }
      rewrite Y by auto. reflexivity.
Qed.

(** Allocating. *)
Lemma alloc_step s l a n at_ : minv s l -> 0 < n -> size_sane n ->
  (exists m' p, alloc s a n at_ = (MSt m' (ms_byte s) (ms_pool s) (ms_size s) (ms_cache s), Ok p) /\
     ainv m' ((a, (p, n)) :: l)) \/
  (exists m', alloc s a n at_ = (MSt m' (ms_byte s) (ms_pool s) (ms_size s) (ms_cache s), Er EThrow) /\
     ainv m' l).
Proof.
  intros I H1 H2. pose proof (alloc_ok (ms_mem s) l a n at_ (mi_a _ _ I) H1 H2) as A. unfold alloc.
  destruct (arena_alloc _ _ _ _) as [m' [p|e]].
  - left. exists m', p. auto.
  - right. destruct A as [-> A]. exists m'. auto.
Qed.

Definition step_good (o : mop) (s : mst) : Prop :=
  exists s' a l', mstep ks bs o s = Ok (s', a) /\ minv s' l' /\ effect ks bs o s a s'.

Lemma insert_good s l i h k d at1 at2 room : minv s l ->
  blen k = ks -> 0 < blen d -> size_sane (blen d) ->
  step_good (PInsert i h k d at1 at2 room) s.
Proof using All.
  intros I Hk Hd Hz. unfold step_good. cbn [mstep]. unfold mp_insert.
  destruct (alloc_step s l (2 * i) ks at1 I Hks Hkz) as [(m1 & kp & E1 & A1)|(m1 & E1 & A1)]; rewrite E1.
  2:{ destruct (unchanged_frame s l m1 (ms_byte s) l I A1 (fun x H => H) (agree_refl _ _)) as [I' U].
      eexists _, AThrow, l. split; [reflexivity|]. split; [exact I'|exact U]. }
  set (l1 := (2 * i, (kp, ks)) :: l) in *.
  assert (I1 : minv (MSt m1 (ms_byte s) (ms_pool s) (ms_size s) (ms_cache s)) l1).
  { apply (minv_frame s l); auto using agree_refl. intros x Hx. right. exact Hx. }
  destruct (alloc_step _ l1 (2 * i) (blen d) at2 I1 Hd Hz) as [(m2 & dp & E2 & A2)|(m2 & E2 & A2)];
    cbn [ms_byte ms_pool ms_size ms_cache] in E2; rewrite E2.
  2:{ destruct (unchanged_frame s l m2 (ms_byte s) l1 I A2 (fun x H => or_intror H) (agree_refl _ _)) as [I' U].
      eexists _, AThrow, l1. split; [reflexivity|]. split; [exact I'|exact U]. }
  set (l2 := (2 * i, (dp, blen d)) :: l1) in *.
  rewrite (live_store0 _ l2 (2 * i) kp ks k) by
    (cbn [ms_mem]; first [exact A2|right; left; reflexivity|lia]).
  cbn [rbind ms_mem ms_byte ms_pool ms_size ms_cache].
  rewrite (live_store0 _ l2 (2 * i) dp (blen d) d) by
    (cbn [ms_mem]; first [exact A2|left; reflexivity|lia]).
  cbn [rbind ms_mem ms_byte ms_pool ms_size ms_cache].
  set (b' := poke (poke (ms_byte s) kp k) dp d).
  pose proof (fresh_apart _ _ _ A2) as F2. cbn [fst snd] in F2.
  pose proof (fresh_apart _ _ _ A1) as F1. cbn [fst snd] in F1.
  assert (G : agree l (ms_byte s) b').
  { apply agree_poke; [apply agree_poke; [apply agree_refl|]|].
    - intros j p n H. rewrite Hk. apply (F1 j p n H).
    - intros j p n H. apply (F2 j p n). right. exact H. }
  assert (Kk : peek b' kp ks = k).
  { unfold b'. rewrite peek_poke_other.
    - rewrite <- Hk. apply peek_poke_same.
    - apply (F2 (2 * i) kp ks). left. reflexivity. }
  assert (Kd : peek b' dp (blen d) = d) by apply peek_poke_same.
  destruct (unchanged_frame s l m2 b' l2 I A2 (fun x H => or_intror (or_intror H)) G) as [I' U].
  destruct room.
  2:{ eexists _, AThrow, l2. split; [reflexivity|]. split; [exact I'|exact U]. }
  set (x := PNode h (blen d) kp dp).
  assert (Kx : key_of b' x = k) by exact Kk.
  rewrite node_insert_ok.
  2:{ apply (live_load _ l2 (2 * i)); [exact A2|right; left; reflexivity]. }
  2:{ intros y Hy. destruct (mi_p _ _ I' i y Hy) as [H _]. cbn [ms_mem] in H.
      apply (live_load _ l2 (2 * i)); [exact A2|exact H]. }
  cbn [rbind ms_byte].
  pose proof (pins_found b' x (ms_pool s i)) as PF. rewrite Kx in PF.
  destruct (pins b' (ms_pool s i) x) as [q ins] eqn:EP. cbn [snd] in PF.
  assert (PV : pview b' (ms_pool s i) k = pview (ms_byte s) (ms_pool s i) k)
    by (apply (pview_agree s l); assumption).
  destruct ins; cbn [negb].
  - (* inserted *)
    destruct (pfind b' (ms_pool s i) k) as [y|] eqn:EF; [discriminate|].
    pose proof (mi_s _ _ I' i) as S. cbn [ms_byte ms_pool] in S.
    assert (QI : forall y, In y q <-> y = x \/ In y (ms_pool s i)).
    { intros y. pose proof (pins_In b' x (ms_pool s i) y) as P. rewrite EP in P. apply P. reflexivity. }
    assert (QS : StronglySorted (below b') q).
    { pose proof (pins_sorted b' x (ms_pool s i) S) as P. rewrite EP in P. apply P. reflexivity. }
    assert (QF : forall k', pfind b' q k' = if beq k' k then Some x else pfind b' (ms_pool s i) k').
    { intros k'. pose proof (pfind_pins b' x (ms_pool s i) k' S) as P. rewrite EP in P.
      cbn [fst snd] in P. rewrite (P eq_refl), Kx. reflexivity. }
    set (s' := MSt m2 b' (upd (ms_pool s) i q) (upd (ms_size s) i (szt (ms_size s i + blen d)))
                 (ms_cache s)).
    assert (I2 : minv s' l2).
    { constructor; cbn [ms_mem ms_byte ms_pool ms_cache s'].
      - exact A2.
      - intros j y Hy. destruct (N.eq_dec j i) as [->|N].
        + rewrite upd_same in Hy. apply QI in Hy. destruct Hy as [->|Hy].
          * split; [right; left; reflexivity|left; reflexivity].
          * destruct (mi_p _ _ I i y Hy). split; right; right; assumption.
        + rewrite upd_other in Hy by exact N. destruct (mi_p _ _ I j y Hy). split; right; right; assumption.
      - intros j. destruct (N.eq_dec j i) as [->|N].
        + rewrite upd_same. exact QS.
        + rewrite upd_other by exact N. apply (sorted_agree s l); assumption.
      - intros j n p H. right. right. apply (mi_c _ _ I j n p H).
      - apply (mi_n _ _ I). }
    exists s', ADone, l2. split; [reflexivity|]. split; [exact I2|]. cbn [effect].
    split; [|split; [|split; [|split; [|split]]]].
    + apply (sees_pair_view s l i k I). unfold pview in PV. rewrite EF in PV. exact PV.
    + apply (sees_pair_view s' l2 i k I2). cbn [ms_byte ms_pool s']. rewrite upd_same.
      unfold pview. rewrite QF, beq_refl. unfold data_of. cbn [pn_hash pn_data pn_size x].
      rewrite Kd. reflexivity.
    + apply (pairs_view s l s' l2 same _ I I2). intros j k' Hj. unfold same.
      cbn [ms_byte ms_pool s']. destruct (N.eq_dec j i) as [->|N].
      * rewrite upd_same. destruct Hj as [Hj|Hj]; [congruence|].
        rewrite <- (pview_agree s l b' i k' I G). unfold pview. rewrite QF.
        apply beq_neq in Hj. rewrite Hj. reflexivity.
      * rewrite upd_other by exact N. apply (pview_agree s l); assumption.
    + intros n Hn. apply sees_size_view in Hn. apply sees_size_view. cbn [ms_size s'].
      rewrite upd_same, Hn. reflexivity.
    + apply sizes_view. intros j Hj. unfold same. cbn [ms_size s']. rewrite upd_other by exact Hj. reflexivity.
    + apply (blocks_view s l s' l2 same _ I I2). intros j n _. cbn [ms_byte ms_cache s'].
      apply (cview_agree s l); assumption.
  - (* present *)
    destruct (pfind b' (ms_pool s i) k) as [y|] eqn:EF; [|discriminate].
    eexists _, AAbort, l2. split; [reflexivity|]. split; [exact I'|]. cbn [effect].
    exists (pn_hash y), (data_of b' y). apply (sees_pair_view s l i k I).
    rewrite <- PV. unfold pview. rewrite EF. reflexivity.
Qed.

Lemma find_good s l i k : minv s l -> step_good (PFind i k) s.
Proof.
  intros I. unfold step_good. cbn [mstep]. rewrite (find_ok s l i k I).
  eexists _, _, l. split; [reflexivity|]. split; [exact I|].
  pose proof (sees_pair_view s l i k I (pview (ms_byte s) (ms_pool s i) k)) as [_ V].
  specialize (V eq_refl). destruct (pview _ _ _) as [[h d]|]; cbn [effect]; auto.
Qed.

Lemma cfind_good s l i n : minv s l -> step_good (CFind i n) s.
Proof.
  intros I. unfold step_good. cbn [mstep]. rewrite (cfind_ok s l i n I).
  eexists _, _, l. split; [reflexivity|]. split; [exact I|].
  pose proof (sees_block_view s l i n I (cview (ms_byte s) (ms_cache s i) n)) as [_ V].
  specialize (V eq_refl). destruct (cview _ _ _) as [d|] eqn:E; cbn [effect]; auto.
  split; [reflexivity|]. split; [exact V|]. unfold cview in E.
  destruct (idx_find _ _); [|discriminate]. injection E as <-. apply blen_peek.
Qed.

Definition shown (b : N -> N) (x : pnode) : bytes * (N * bytes) := (key_of b x, (pn_hash x, data_of b x)).

Lemma node_walk_ok s l i : minv s l -> forall q, (forall x, In x q -> In x (ms_pool s i)) ->
  node_walk ks s q = Ok (map (shown (ms_byte s)) q).
Proof.
  intros I. induction q as [|x q IH]; intros H; [reflexivity|]. cbn [node_walk map].
  destruct (mi_p _ _ I i x (H x (or_introl eq_refl))) as [H1 H2].
  rewrite (live_load s l _ _ _ (mi_a _ _ I) H1). cbn [rbind].
  rewrite (live_load s l _ _ _ (mi_a _ _ I) H2). cbn [rbind].
  rewrite IH by (intros y Hy; apply H; right; exact Hy). reflexivity.
Qed.

Lemma listed_view b q k : StronglySorted (below b) q ->
  listed (map (shown b) q) k = pview b q k.
Proof.
  unfold listed, pview. induction 1 as [|x q S IH F]; [reflexivity|]. cbn [map find pfind].
  cbn [shown fst]. destruct (blt (key_of b x) k) eqn:E1.
  - assert (E : beq (key_of b x) k = false).
    { apply beq_neq. intros E. rewrite E, blt_irrefl in E1. discriminate. }
    rewrite E. exact IH.
  - destruct (blt k (key_of b x)) eqn:E2.
    + assert (E : beq (key_of b x) k = false).
      { apply beq_neq. intros E. rewrite E, blt_irrefl in E2. discriminate. }
      rewrite E. rewrite IH. rewrite (pfind_above b q k x S F E2). reflexivity.
    + rewrite (blt_total _ _ E1 E2), beq_refl. reflexivity.
Qed.

Lemma walk_good s l i : minv s l -> step_good (PWalk i) s.
Proof.
  intros I. unfold step_good. cbn [mstep]. unfold mp_walk.
  rewrite (node_walk_ok s l i I) by auto. cbn [rbind].
  eexists _, _, l. split; [reflexivity|]. split; [exact I|]. cbn [effect].
  split; [reflexivity|]. split; [|split].
  - pose proof (mi_s _ _ I i) as S. induction S as [|x q S IH F]; cbn [map]; constructor; [exact IH|].
    rewrite Forall_forall in *. intros y Hy. apply in_map_iff in Hy. destruct Hy as (z & <- & Hz).
    apply (F z Hz).
  - intros k _. apply (sees_pair_view s l i k I). apply listed_view. apply (mi_s _ _ I).
  - apply Forall_forall. intros y Hy. apply in_map_iff in Hy. destruct Hy as (z & <- & Hz).
    cbn [shown fst]. apply blen_peek.
Qed.

Lemma size_good s l i : minv s l -> step_good (PSize i) s.
Proof.
  intros I. exists s, (ANum (ms_size s i)), l. split; [reflexivity|]. split; [exact I|].
  cbn [effect]. split; reflexivity.
Qed.

Lemma in_drop i j r l : In (j, r) l -> j <> i -> In (j, r) (drop_owner i l).
Proof.
  intros H N. unfold drop_owner. apply filter_In. split; [exact H|]. cbn [fst].
  apply N.eqb_neq in N. rewrite N. reflexivity.
Qed.

Lemma pclear_good s l i : minv s l -> step_good (PClear i) s.
Proof.
  intros I. unfold step_good. cbn [mstep]. unfold mp_clear.
  destruct (clear_ok (ms_mem s) l (2 * i) (mi_a _ _ I)) as (m' & E & A & _). rewrite E. cbn [rbind].
  set (s' := MSt m' (ms_byte s) (upd (ms_pool s) i []) (upd (ms_size s) i 0) (ms_cache s)).
  assert (I' : minv s' (drop_owner (2 * i) l)).
  { constructor; cbn [ms_mem ms_byte ms_pool ms_cache s'].
    - exact A.
    - intros j x Hx. destruct (N.eq_dec j i) as [->|N]; [rewrite upd_same in Hx; destruct Hx|].
      rewrite upd_other in Hx by exact N. destruct (mi_p _ _ I j x Hx). split; apply in_drop; auto; lia.
    - intros j. destruct (N.eq_dec j i) as [->|N]; [rewrite upd_same; constructor|].
      rewrite upd_other by exact N. apply (mi_s _ _ I).
    - intros j n p H. apply in_drop; [apply (mi_c _ _ I j n p H)|lia].
    - apply (mi_n _ _ I). }
  exists s', ADone, (drop_owner (2 * i) l). split; [reflexivity|]. split; [exact I'|]. cbn [effect].
  split; [|split; [|split; [|split]]].
  - intros k. apply (sees_pair_view s' _ i k I'). cbn [ms_pool s']. rewrite upd_same. reflexivity.
  - apply sees_size_view. cbn [ms_size s']. rewrite upd_same. reflexivity.
  - apply (pairs_view s l s' _ same _ I I'). intros j k Hj. cbn [ms_pool ms_byte s'].
    rewrite upd_other by exact Hj. reflexivity.
  - apply sizes_view. intros j Hj. cbn [ms_size s']. rewrite upd_other by exact Hj. reflexivity.
  - apply (blocks_view s l s' _ same _ I I'). intros j n _. reflexivity.
Qed.

Lemma cclear_good s l i : minv s l -> step_good (CClear i) s.
Proof.
  intros I. unfold step_good. cbn [mstep]. unfold mc_clear.
  destruct (clear_ok (ms_mem s) l (2 * i + 1) (mi_a _ _ I)) as (m' & E & A & _). rewrite E. cbn [rbind].
  set (s' := MSt m' (ms_byte s) (ms_pool s) (ms_size s) (upd (ms_cache s) i [])).
  assert (I' : minv s' (drop_owner (2 * i + 1) l)).
  { constructor; cbn [ms_mem ms_byte ms_pool ms_cache s'].
    - exact A.
    - intros j x Hx. destruct (mi_p _ _ I j x Hx). split; apply in_drop; auto; lia.
    - apply (mi_s _ _ I).
    - intros j n p H. destruct (N.eq_dec j i) as [->|N]; [rewrite upd_same in H; destruct H|].
      rewrite upd_other in H by exact N. apply in_drop; [apply (mi_c _ _ I j n p H)|lia].
    - intros j. destruct (N.eq_dec j i) as [->|N]; [rewrite upd_same; constructor|].
      rewrite upd_other by exact N. apply (mi_n _ _ I). }
  exists s', ADone, (drop_owner (2 * i + 1) l). split; [reflexivity|]. split; [exact I'|]. cbn [effect].
  split; [|split; [|split]].
  - intros n. apply (sees_block_view s' _ i n I'). cbn [ms_cache s']. rewrite upd_same. reflexivity.
  - apply (pairs_view s l s' _ same _ I I'). intros j k _. reflexivity.
  - apply sizes_view. reflexivity.
  - apply (blocks_view s l s' _ same _ I I'). intros j n Hj. cbn [ms_cache ms_byte s'].
    rewrite upd_other by exact Hj. reflexivity.
Qed.

(** Exchanging the arenas. *)
Lemma in_rename f k k' r l : In (k, r) l -> f k = k' -> In (k', r) (rename f l).
Proof. intros H <-. unfold rename. apply in_map_iff. exists (k, r). auto. Qed.

Lemma upd2 {A} (f : N -> A) i j k : upd (upd f i (f j)) j (f i) k = f (exchange i j k).
Proof.
  unfold upd, exchange. destruct (N.eqb_spec k j) as [->|H1].
  - destruct (N.eqb_spec j i) as [->|H2]; reflexivity.
  - destruct (N.eqb_spec k i) as [->|H2]; reflexivity.
Qed.

Lemma pswap_good s l i j : minv s l -> step_good (PSwap i j) s.
Proof.
  intros I. unfold step_good. cbn [mstep]. unfold mp_swap.
  pose proof (swap_ok (ms_mem s) l (2 * i) (2 * j) (mi_a _ _ I)) as A.
  set (f := fun k => if k =? 2 * i then 2 * j else if k =? 2 * j then 2 * i else k) in A.
  assert (F1 : forall k, f (2 * exchange i j k) = 2 * k).
  { intros k. unfold f, exchange. destruct (N.eqb_spec k i) as [->|H1].
    - destruct (N.eqb_spec (2 * j) (2 * i)); [lia|]. rewrite N.eqb_refl. reflexivity.
    - destruct (N.eqb_spec k j) as [->|H2]; [rewrite N.eqb_refl; reflexivity|].
      destruct (N.eqb_spec (2 * k) (2 * i)); [lia|]. destruct (N.eqb_spec (2 * k) (2 * j)); [lia|reflexivity]. }
  assert (F2 : forall k, f (2 * k + 1) = 2 * k + 1).
  { intros k. unfold f. destruct (N.eqb_spec (2 * k + 1) (2 * i)); [lia|].
    destruct (N.eqb_spec (2 * k + 1) (2 * j)); [lia|reflexivity]. }
  set (s' := MSt _ _ _ _ _).
  assert (I' : minv s' (rename f l)).
  { constructor; cbn [ms_mem ms_byte ms_pool ms_cache s'].
    - exact A.
    - intros k x Hx. rewrite upd2 in Hx. destruct (mi_p _ _ I _ x Hx) as [H1 H2].
      split; eapply in_rename; eauto.
    - intros k. rewrite upd2. apply (mi_s _ _ I).
    - intros k n p H. eapply in_rename; [apply (mi_c _ _ I k n p H)|apply F2].
    - apply (mi_n _ _ I). }
  exists s', ADone, (rename f l). split; [reflexivity|]. split; [exact I'|]. cbn [effect].
  split; [|split].
  - apply (pairs_view s l s' _ _ _ I I'). intros k q _. cbn [ms_byte ms_pool s']. rewrite upd2. reflexivity.
  - apply sizes_view. intros k _. cbn [ms_size s']. rewrite upd2. reflexivity.
  - apply (blocks_view s l s' _ _ _ I I'). intros k n _. reflexivity.
Qed.

Lemma cswap_good s l i j : minv s l -> step_good (CSwap i j) s.
Proof.
  intros I. unfold step_good. cbn [mstep]. unfold mc_swap.
  pose proof (swap_ok (ms_mem s) l (2 * i + 1) (2 * j + 1) (mi_a _ _ I)) as A.
  set (f := fun k => if k =? 2 * i + 1 then 2 * j + 1 else if k =? 2 * j + 1 then 2 * i + 1 else k) in A.
  assert (F1 : forall k, f (2 * exchange i j k + 1) = 2 * k + 1).
  { intros k. unfold f, exchange. destruct (N.eqb_spec k i) as [->|H1].
    - destruct (N.eqb_spec (2 * j + 1) (2 * i + 1)); [lia|]. rewrite N.eqb_refl. reflexivity.
    - destruct (N.eqb_spec k j) as [->|H2]; [rewrite N.eqb_refl; reflexivity|].
      destruct (N.eqb_spec (2 * k + 1) (2 * i + 1)); [lia|].
      destruct (N.eqb_spec (2 * k + 1) (2 * j + 1)); [lia|reflexivity]. }
  assert (F2 : forall k, f (2 * k) = 2 * k).
  { intros k. unfold f. destruct (N.eqb_spec (2 * k) (2 * i + 1)); [lia|].
    destruct (N.eqb_spec (2 * k) (2 * j + 1)); [lia|reflexivity]. }
  set (s' := MSt _ _ _ _ _).
  assert (I' : minv s' (rename f l)).
  { constructor; cbn [ms_mem ms_byte ms_pool ms_cache s'].
    - exact A.
    - intros k x Hx. destruct (mi_p _ _ I _ x Hx) as [H1 H2].
      split; eapply in_rename; eauto.
    - apply (mi_s _ _ I).
    - intros k n p H. rewrite upd2 in H. eapply in_rename; [apply (mi_c _ _ I _ n p H)|apply F1].
    - intros k. rewrite upd2. apply (mi_n _ _ I). }
  exists s', ADone, (rename f l). split; [reflexivity|]. split; [exact I'|]. cbn [effect].
  split; [|split].
  - apply (pairs_view s l s' _ _ _ I I'). intros k q _. reflexivity.
  - apply sizes_view. reflexivity.
  - apply (blocks_view s l s' _ _ _ I I'). intros k n _. cbn [ms_byte ms_cache s']. rewrite upd2. reflexivity.
Qed.

(** Arenas that only get another block size. *)
Lemma periodic_ainv m l i r : ainv m l -> size_sane r -> ainv (arena_periodic m i r) l.
Proof.
  intros I H. pose proof (ai_alloc _ _ I i) as Z. unfold arena_periodic. cbv zeta.
  destruct (szt (ar_alloc (m_arena m i) * 2) <=? r) eqn:E.
  - apply ainv_alloc_size; [exact I|]. apply N.leb_le in E. unfold size_sane in *. lia.
  - destruct (r <=? ar_alloc (m_arena m i) / 2); [|exact I]. apply ainv_alloc_size; [exact I|].
    unfold size_sane in *. pose proof (N.div_le_upper_bound (ar_alloc (m_arena m i)) 2 (ar_alloc (m_arena m i))). lia.
Qed.

Lemma periodic_good s l i r : minv s l -> size_sane r -> step_good (PPeriodic i r) s.
Proof.
  intros I H. unfold step_good. cbn [mstep]. unfold mp_periodic.
  destruct (unchanged_frame s l _ (ms_byte s) l I (periodic_ainv _ l (2 * i) r (mi_a _ _ I) H)
              (fun x H => H) (agree_refl _ _)) as [I' U].
  eexists _, ADone, l. split; [reflexivity|]. split; [exact I'|exact U].
Qed.

Lemma reserve_good s l i n room : minv s l -> size_sane (n * bs) -> step_good (CReserve i n room) s.
Proof.
  intros I H. unfold step_good. cbn [mstep]. unfold mc_reserve.
  assert (A : ainv (arena_hint (ms_mem s) (2 * i + 1) (szt (n * bs))) l).
  { unfold arena_hint. apply ainv_alloc_size; [apply (mi_a _ _ I)|]. unfold size_sane, szt in *.
    rewrite N.mod_small; [exact H|]. clear - H. generalize dependent (n * bs). intros. lia. }
  destruct (unchanged_frame s l _ (ms_byte s) l I A (fun x H => H) (agree_refl _ _)) as [I' U].
  eexists _, _, l. split; [reflexivity|]. split; [exact I'|]. destruct room; exact U.
Qed.

(** A block that joins a cache. *)
Lemma emplace_good s l i n p m' d l' : minv s l -> ainv m' l' -> l' = (2 * i + 1, (p, bs)) :: l ->
  blen d <= bs ->
  let s' := MSt m' (poke (ms_byte s) p d) (ms_pool s) (ms_size s)
              (upd (ms_cache s) i (idx_emplace (ms_cache s i) n p)) in
  minv s' l' /\
  (sees_block ks bs s i n None ->
     exists rest, blen (d ++ rest) = bs /\ sees_block ks bs s' i n (Some (d ++ rest))) /\
  (forall d, sees_block ks bs s i n (Some d) -> sees_block ks bs s' i n (Some d)) /\
  pairs_from ks bs same all2 s s' /\ sizes_from ks bs same all1 s s' /\
  blocks_from ks bs same (fun j m => j <> i \/ m <> n) s s'.
Proof using All.
  intros I A El Hd s'. subst l'.
  pose proof (fresh_apart _ _ _ A) as F. cbn [fst snd] in F.
  set (b' := poke (ms_byte s) p d) in *.
  assert (G : agree l (ms_byte s) b').
  { apply agree_poke; [apply agree_refl|]. intros j q k H. specialize (F j q k H). lia. }
  assert (Ec : forall j, ms_cache s' j = ms_cache s j \/
             (j = i /\ idx_find (ms_cache s i) n = None /\ ms_cache s' j = (n, p) :: ms_cache s j)).
  { intros j. cbn [ms_cache s']. destruct (N.eq_dec j i) as [->|N].
    - rewrite upd_same. unfold idx_emplace. destruct (idx_find (ms_cache s i) n); auto.
    - rewrite upd_other by exact N. auto. }
  assert (Ei : ms_cache s' i = idx_emplace (ms_cache s i) n p) by (cbn [ms_cache s']; apply upd_same).
  assert (I' : minv s' ((2 * i + 1, (p, bs)) :: l)).
  { constructor; cbn [ms_mem ms_byte ms_pool s'].
    - exact A.
    - intros j x Hx. destruct (mi_p _ _ I j x Hx). split; right; assumption.
    - intros j. apply (sorted_agree s l); assumption.
    - intros j k q H. change (In (k, q) (ms_cache s' j)) in H.
      destruct (Ec j) as [E|(-> & _ & E)]; rewrite E in H.
      + right. apply (mi_c _ _ I j k q H).
      + destruct H as [H|H]; [injection H as -> ->; left; reflexivity|right; apply (mi_c _ _ I i k q H)].
    - intros j. change (NoDup (map snd (ms_cache s' j))).
      destruct (Ec j) as [E|(-> & _ & E)]; rewrite E; [apply (mi_n _ _ I)|].
      cbn [map snd]. constructor; [|apply (mi_n _ _ I)]. intros H. apply in_map_iff in H.
      destruct H as ([k q] & E1 & H). cbn [snd] in E1. subst q.
      pose proof (F _ _ _ (mi_c _ _ I i k p H)). lia. }
  split; [exact I'|]. split; [|split; [|split; [|split]]].
  - intros H. apply (sees_block_view s l i n I) in H.
    assert (E0 : idx_find (ms_cache s i) n = None).
    { unfold cview in H. destruct (idx_find (ms_cache s i) n); [discriminate|reflexivity]. }
    exists (peek (ms_byte s) (p + blen d) (bs - blen d)). split.
    + rewrite blen_app, blen_peek. lia.
    + apply (sees_block_view s' _ i n I'). unfold cview. rewrite Ei. unfold idx_emplace. rewrite E0.
      cbn [idx_find]. rewrite N.eqb_refl. cbn [ms_byte s']. unfold b'.
      rewrite peek_poke_front by exact Hd. reflexivity.
  - intros e H. apply (sees_block_view s l i n I) in H. apply (sees_block_view s' _ i n I').
    rewrite H. rewrite <- (cview_agree s l b' i n I G). unfold cview. rewrite Ei. unfold idx_emplace.
    unfold cview in H. destruct (idx_find (ms_cache s i) n) as [q|] eqn:E0; [|discriminate].
    rewrite E0. reflexivity.
  - apply (pairs_view s l s' _ _ _ I I'). intros j k _. cbn [ms_byte ms_pool s'].
    apply (pview_agree s l); assumption.
  - apply sizes_view. reflexivity.
  - apply (blocks_view s l s' _ _ _ I I'). intros j m Hj. unfold same.
    rewrite <- (cview_agree s l b' j m I G). cbn [ms_byte s']. unfold cview.
    destruct (Ec j) as [E|(-> & _ & E)]; rewrite E; [reflexivity|].
    cbn [idx_find]. destruct (N.eqb_spec n m) as [->|N]; [|reflexivity].
    destruct Hj; congruence.
Qed.

Lemma create_good s l i n at_ room : minv s l -> step_good (CCreate i n at_ room) s.
Proof using All.
  intros I. unfold step_good. cbn [mstep]. unfold mc_create.
  destruct (alloc_step s l (2 * i + 1) bs at_ I Hbs Hbz) as [(m1 & p & E1 & A1)|(m1 & E1 & A1)]; rewrite E1.
  2:{ destruct (unchanged_frame s l m1 (ms_byte s) l I A1 (fun x H => H) (agree_refl _ _)) as [I' U].
      eexists _, AThrow, l. split; [reflexivity|]. split; [exact I'|exact U]. }
  destruct room.
  2:{ destruct (unchanged_frame s l m1 (ms_byte s) _ I A1 (fun x H => or_intror H) (agree_refl _ _)) as [I' U].
      eexists _, AThrow, _. split; [reflexivity|]. split; [exact I'|exact U]. }
  cbn [ms_mem ms_byte ms_pool ms_size ms_cache].
  rewrite (live_store0 _ _ (2 * i + 1) p bs (zeros bs)) by
    (cbn [ms_mem]; first [exact A1|left; reflexivity|rewrite blen_zeros; lia]).
  cbn [rbind ms_mem ms_byte ms_pool ms_size ms_cache].
  destruct (emplace_good s l i n p m1 (zeros bs) _ I A1 eq_refl) as (I' & C1 & C2 & C3 & C4 & C5);
    [rewrite blen_zeros; lia|].
  eexists _, ADone, _. split; [reflexivity|]. split; [exact I'|]. cbn [effect].
  split; [|auto].
  intros H. destruct (C1 H) as (rest & L & S).
  assert (rest = []) as ->.
  { apply blen_0. rewrite blen_app, blen_zeros in L. lia. }
  rewrite app_nil_r in S. exact S.
Qed.

Lemma cinsert_good s l i n d at_ room : minv s l -> blen d <= bs -> step_good (CInsert i n d at_ room) s.
Proof using All.
  intros I Hd. unfold step_good. cbn [mstep]. unfold mc_insert.
  destruct (alloc_step s l (2 * i + 1) bs at_ I Hbs Hbz) as [(m1 & p & E1 & A1)|(m1 & E1 & A1)]; rewrite E1.
  2:{ destruct (unchanged_frame s l m1 (ms_byte s) l I A1 (fun x H => H) (agree_refl _ _)) as [I' U].
      eexists _, AThrow, l. split; [reflexivity|]. split; [exact I'|exact U]. }
  rewrite (live_store0 _ _ (2 * i + 1) p bs d) by
    (cbn [ms_mem]; first [exact A1|left; reflexivity|lia]).
  cbn [rbind ms_mem ms_byte ms_pool ms_size ms_cache].
  destruct room.
  - destruct (emplace_good s l i n p m1 d _ I A1 eq_refl Hd) as (I' & C).
    eexists _, ADone, _. split; [reflexivity|]. split; [exact I'|exact C].
  - pose proof (fresh_apart _ _ _ A1) as F. cbn [fst snd] in F.
    assert (G : agree l (ms_byte s) (poke (ms_byte s) p d)).
    { apply agree_poke; [apply agree_refl|]. intros j q k H. specialize (F j q k H). lia. }
    destruct (unchanged_frame s l m1 _ _ I A1 (fun x H => or_intror H) G) as [I' U].
    eexists _, AThrow, _. split; [reflexivity|]. split; [exact I'|exact U].
Qed.

Lemma idx_unique (c : list (N * N)) n m p : NoDup (map snd c) -> In (n, p) c -> In (m, p) c -> n = m.
Proof.
  induction c as [|[k q] c IH]; intros D H1 H2; [destruct H1|]. cbn [map snd] in D.
  inversion D as [|? ? D1 D2]; subst.
  destruct H1 as [H1|H1], H2 as [H2|H2].
  - congruence.
  - injection H1 as -> ->. exfalso. apply D1. apply in_map_iff. exists (m, p). auto.
  - injection H2 as -> ->. exfalso. apply D1. apply in_map_iff. exists (n, p). auto.
  - apply IH; assumption.
Qed.

Lemma cwrite_good s l i n off d : minv s l -> off + blen d <= bs -> step_good (CWrite i n off d) s.
Proof using All.
  intros I Hd. unfold step_good. cbn [mstep]. unfold mc_write.
  destruct (idx_find (ms_cache s i) n) as [p|] eqn:E.
  2:{ exists s, AMiss, l. split; [reflexivity|]. split; [exact I|]. cbn [effect]. split; [reflexivity|].
      apply (sees_block_view s l i n I). unfold cview. rewrite E. reflexivity. }
  pose proof (idx_find_In _ _ _ E) as Hin. pose proof (mi_c _ _ I i n p Hin) as Hp.
  rewrite (live_store s l (2 * i + 1) p bs off d (mi_a _ _ I) Hp Hd). cbn [rbind].
  set (b' := poke (ms_byte s) (p + off) d).
  assert (O : forall x, In x l -> x <> (2 * i + 1, (p, bs)) ->
            peek b' (fst (snd x)) (snd (snd x)) = peek (ms_byte s) (fst (snd x)) (snd (snd x))).
  { intros x Hx N. unfold b'. apply peek_poke_other.
    destruct (live_apart _ _ _ _ (mi_a _ _ I) Hx Hp) as [H|H]; [contradiction|].
    unfold disjoint in H. cbn [fst snd] in H. lia. }
  assert (KP : forall j x, In x (ms_pool s j) -> key_of b' x = key_of (ms_byte s) x /\ data_of b' x = data_of (ms_byte s) x).
  { intros j x Hx. destruct (mi_p _ _ I j x Hx) as [H1 H2]. split.
    - apply (O _ H1). intros X. injection X. lia.
    - apply (O _ H2). intros X. injection X. lia. }
  assert (PV : forall j k, pview b' (ms_pool s j) k = pview (ms_byte s) (ms_pool s j) k).
  { intros j k. unfold pview. rewrite (pfind_ext (ms_byte s) b') by (intros x Hx; apply (KP j x Hx)).
    destruct (pfind _ _ _) as [x|] eqn:Ex; [|reflexivity]. apply pfind_In in Ex.
    destruct (KP j x Ex) as [_ ->]. reflexivity. }
  set (s' := MSt (ms_mem s) b' (ms_pool s) (ms_size s) (ms_cache s)).
  assert (I' : minv s' l).
  { constructor; cbn [ms_mem ms_byte ms_pool ms_cache s'].
    - apply (mi_a _ _ I).
    - apply (mi_p _ _ I).
    - intros j. pose proof (mi_s _ _ I j) as S. pose proof (KP j) as K.
      induction S as [|x q S IH F]; constructor.
      + apply IH. intros y Hy. apply K. right. exact Hy.
      + rewrite Forall_forall in *. intros y Hy. unfold below.
        destruct (K x (or_introl eq_refl)) as [-> _]. destruct (K y (or_intror Hy)) as [-> _]. apply F. exact Hy.
    - apply (mi_c _ _ I).
    - apply (mi_n _ _ I). }
  exists s', ADone, l. split; [reflexivity|]. split; [exact I'|]. cbn [effect].
  split; [|split; [|split]].
  - exists (peek (ms_byte s) p bs). split.
    + apply (sees_block_view s l i n I). unfold cview. rewrite E. reflexivity.
    + apply (sees_block_view s' l i n I'). unfold cview. cbn [ms_cache ms_byte s']. rewrite E.
      f_equal. symmetry. apply peek_poke_in. exact Hd.
  - apply (pairs_view s l s' l _ _ I I'). intros j k _. apply PV.
  - apply sizes_view. reflexivity.
  - apply (blocks_view s l s' l _ _ I I'). intros j m Hj. unfold cview, same. cbn [ms_cache ms_byte s'].
    destruct (idx_find (ms_cache s j) m) as [q|] eqn:Eq; [|reflexivity]. f_equal.
    apply idx_find_In in Eq. apply (O _ (mi_c _ _ I j m q Eq)).
    intros X. injection X as X1 X2. assert (j = i) by lia. subst j q.
    destruct Hj as [Hj|Hj]; [congruence|]. apply Hj. symmetry.
    apply (idx_unique (ms_cache s i) n m p (mi_n _ _ I i) Hin Eq).
Qed.

Theorem step_is_good o s l : minv s l -> mop_sane ks bs o -> step_good o s.
Proof using All.
  intros I H. destruct o; cbn [mop_sane] in H.
  - destruct H as (H1 & H2 & H3). apply (insert_good s l); assumption.
  - apply (find_good s l); assumption.
  - apply (walk_good s l); assumption.
  - apply (size_good s l); assumption.
  - apply (pclear_good s l); assumption.
  - apply (pswap_good s l); assumption.
  - apply (periodic_good s l); assumption.
  - apply (create_good s l); assumption.
  - apply (cinsert_good s l); assumption.
  - apply (cfind_good s l); assumption.
  - apply (cwrite_good s l); assumption.
  - apply (cclear_good s l); assumption.
  - apply (reserve_good s l); assumption.
  - apply (cswap_good s l); assumption.
Qed.

Lemma minv0 b : minv (mst0 b) [].
Proof.
  constructor; cbn [ms_mem ms_byte ms_pool ms_cache mst0].
  - apply ainv0.
  - intros i x [].
  - intros i. constructor.
  - intros i n p [].
  - intros i. constructor.
Qed.

Lemma reached_inv b s : reached ks bs b s -> exists l, minv s l.
Proof using All.
  induction 1 as [|s o s' a R [l I] So E Na]; [exists []; apply minv0|].
  destruct (step_is_good o s l I So) as (s2 & a2 & l2 & E2 & I2 & _). rewrite E in E2.
  injection E2 as -> ->. exists l2. exact I2.
Qed.

Theorem reached_good b s o : reached ks bs b s -> mop_sane ks bs o ->
  exists s' a, mstep ks bs o s = Ok (s', a) /\ effect ks bs o s a s'.
Proof using All.
  intros R H. destruct (reached_inv b s R) as [l I].
  destruct (step_is_good o s l I H) as (s' & a & l' & E & _ & F). exists s', a. auto.
Qed.

Lemma sees_pair_det s i k r r' : sees_pair ks bs s i k r -> sees_pair ks bs s i k r' -> r = r'.
Proof.
  unfold sees_pair. intros H1 H2. rewrite H1 in H2. injection H2 as H2.
  destruct r as [[h d]|], r' as [[h' d']|]; congruence.
Qed.

Lemma exchange_other i j k : k <> i -> k <> j -> exchange i j k = k.
Proof.
  intros H1 H2. unfold exchange. apply N.eqb_neq in H1, H2. rewrite H1, H2. reflexivity.
Qed.

Lemma effect_pair o s a s' i k r : effect ks bs o s a s' -> a <> AAbort -> ~ takes_pairs i o ->
  sees_pair ks bs s i k (Some r) -> sees_pair ks bs s' i k (Some r).
Proof.
  intros E Na T H.
  assert (U : pairs_from ks bs same all2 s s' -> sees_pair ks bs s' i k (Some r)).
  { intros U. exact (U i k (Some r) I H). }
  destruct o, a; cbn [effect] in E; try contradiction; try (destruct E as [-> _]; exact H);
    try (apply U; unfold unchanged in E; tauto).
  - destruct E as (E1 & _ & E3 & _). apply (E3 i k (Some r)); [|exact H].
    destruct (N.eq_dec i i0) as [->|N]; [|left; exact N]. right. intros ->.
    pose proof (sees_pair_det _ _ _ _ _ E1 H). discriminate.
  - destruct E as (_ & _ & E3 & _). apply (E3 i k (Some r)); [|exact H].
    cbn [takes_pairs] in T. congruence.
  - destruct E as (E1 & _). apply (E1 i k (Some r) I). cbn [takes_pairs] in T.
    rewrite exchange_other by intuition congruence. exact H.
Qed.

Lemma effect_block o s a s' i n b : effect ks bs o s a s' -> a <> AAbort -> ~ takes_block i n o ->
  sees_block ks bs s i n (Some b) -> sees_block ks bs s' i n (Some b).
Proof.
  intros E Na T H.
  assert (U : blocks_from ks bs same all2 s s' -> sees_block ks bs s' i n (Some b)).
  { intros U. exact (U i n (Some b) I H). }
  destruct o, a; cbn [effect] in E; try contradiction; try (destruct E as [-> _]; exact H);
    try (apply U; unfold unchanged in E; tauto).
  - destruct E as (_ & E2 & _ & _ & E5). destruct (N.eq_dec i i0) as [->|N].
    + destruct (N.eq_dec n n0) as [->|N]; [apply E2; exact H|]. apply (E5 i0 n (Some b)); auto.
    + apply (E5 i n (Some b)); auto.
  - destruct E as (_ & E2 & _ & _ & E5). destruct (N.eq_dec i i0) as [->|N].
    + destruct (N.eq_dec n n0) as [->|N]; [apply E2; exact H|]. apply (E5 i0 n (Some b)); auto.
    + apply (E5 i n (Some b)); auto.
  - destruct E as (_ & _ & _ & E5). apply (E5 i n (Some b)); [|exact H]. cbn [takes_block] in T.
    destruct (N.eq_dec i i0) as [->|N]; [right; intros ->; apply T; auto|left; exact N].
  - destruct E as (_ & _ & _ & E5). apply (E5 i n (Some b)); [|exact H]. cbn [takes_block] in T. congruence.
  - destruct E as (_ & _ & E3). apply (E3 i n (Some b) I). cbn [takes_block] in T.
    rewrite exchange_other by intuition congruence. exact H.
Qed.

Lemma mruns_reached b os s s' : reached ks bs b s -> mruns ks bs os s s' -> reached ks bs b s'.
Proof.
  intros R M. revert R. induction M as [|o os s s' a s2 So E Na M IH]; intros R; [exact R|].
  apply IH. apply (reached_step ks bs b s o s' a); assumption.
Qed.

Theorem pair_kept b os s s' i k r : reached ks bs b s -> mruns ks bs os s s' ->
  Forall (fun o => ~ takes_pairs i o) os ->
  sees_pair ks bs s i k (Some r) -> sees_pair ks bs s' i k (Some r).
Proof using All.
  intros R M. revert R. induction M as [|o os s s' a s2 So E Na M IH]; intros R F H; [exact H|].
  inversion F as [|? ? F1 F2]; subst. apply IH; [apply (reached_step ks bs b s o s' a); assumption|exact F2|].
  destruct (reached_good b s o R So) as (s3 & a3 & E3 & G). rewrite E in E3. injection E3 as <- <-.
  apply (effect_pair o s a s' i k r G Na F1 H).
Qed.

Theorem block_kept b os s s' i n d : reached ks bs b s -> mruns ks bs os s s' ->
  Forall (fun o => ~ takes_block i n o) os ->
  sees_block ks bs s i n (Some d) -> sees_block ks bs s' i n (Some d).
Proof using All.
  intros R M. revert R. induction M as [|o os s s' a s2 So E Na M IH]; intros R F H; [exact H|].
  inversion F as [|? ? F1 F2]; subst. apply IH; [apply (reached_step ks bs b s o s' a); assumption|exact F2|].
  destruct (reached_good b s o R So) as (s3 & a3 & E3 & G). rewrite E in E3. injection E3 as <- <-.
  apply (effect_block o s a s' i n d G Na F1 H).
Qed.
End F.
