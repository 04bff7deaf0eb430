(** Arenas. *)
From Verif Require Import Model.Bytes Model.Err Model.Arena Proofs.BytesFacts SpecArena.

Definition blk (s : slab) : N * N := (sl_base s, elem_size + sl_cap s).

Record slab_ok (s : slab) : Prop := {
  so_used : sl_used s <= sl_cap s;
  so_u8 : sl_used s mod 8 = 0;
  so_b8 : sl_base s mod 8 = 0;
  so_end : sl_base s + elem_size + sl_cap s <= 2 ^ 64 }.

Definition in_slab (s : slab) (a : N * N) : Prop :=
  sl_base s + elem_size <= fst a /\ fst a + snd a <= sl_base s + elem_size + sl_used s /\
  fst a mod 8 = 0.

Record ainv (m : mem) (l : lives) : Prop := {
  ai_heap : pairwise disjoint (m_heap m);
  ai_pos : forall b, In b (m_heap m) -> elem_size <= snd b;
  ai_in : forall i s, In s (ar_list (m_arena m i)) -> In (blk s) (m_heap m);
  ai_ok : forall i s, In s (ar_list (m_arena m i)) -> slab_ok s;
  ai_nodup : forall i, NoDup (map sl_base (ar_list (m_arena m i)));
  ai_sep : forall i j s t, i <> j -> In s (ar_list (m_arena m i)) ->
             In t (ar_list (m_arena m j)) -> sl_base s <> sl_base t;
  ai_own : forall b, In b (m_heap m) -> exists i s, In s (ar_list (m_arena m i)) /\ b = blk s;
  ai_live : forall i a, In (i, a) l -> exists s, In s (ar_list (m_arena m i)) /\ in_slab s a;
  ai_pair : pairwise (fun x y => disjoint (snd x) (snd y)) l;
  ai_alloc : forall i, size_sane (ar_alloc (m_arena m i)) }.

Lemma disjoint_sym a b : disjoint a b -> disjoint b a.
Proof. unfold disjoint. tauto. Qed.

Lemma pairwise_In {A} (R : A -> A -> Prop) l : (forall x y, R x y -> R y x) ->
  pairwise R l -> forall x y, In x l -> In y l -> x = y \/ R x y.
Proof.
  intros Hs. induction l as [|z l IH]; intros H x y Hx Hy; [destruct Hx|]. destruct H as [H1 H2].
  destruct Hx as [->|Hx], Hy as [->|Hy]; auto.
Qed.

Lemma pairwise_filter {A} (R : A -> A -> Prop) f l : pairwise R l -> pairwise R (filter f l).
Proof.
  induction l as [|z l IH]; intros H; cbn [filter]; auto. destruct H as [H1 H2].
  destruct (f z); auto. split; auto. intros y Hy. apply filter_In in Hy. apply H1. tauto.
Qed.

Lemma pairwise_rename f l :
  pairwise (fun x y : N * (N * N) => disjoint (snd x) (snd y)) l ->
  pairwise (fun x y : N * (N * N) => disjoint (snd x) (snd y)) (rename f l).
Proof.
  induction l as [|z l IH]; intros H; cbn [rename map]; auto. destruct H as [H1 H2]. split; auto.
  intros y Hy. apply in_map_iff in Hy as (x & <- & Hx). cbn [snd]. auto.
Qed.

(** Blocks of different slabs. *)
Lemma slabs_apart m l : ainv m l -> forall i j s t,
  In s (ar_list (m_arena m i)) -> In t (ar_list (m_arena m j)) ->
  sl_base s = sl_base t \/ disjoint (blk s) (blk t).
Proof.
  intros I i j s t Hs Ht.
  destruct (pairwise_In disjoint (m_heap m) disjoint_sym (ai_heap _ _ I) (blk s) (blk t)
    (ai_in _ _ I i s Hs) (ai_in _ _ I j t Ht)) as [E|D]; auto.
  left. unfold blk in E. congruence.
Qed.

Lemma same_slab m l : ainv m l -> forall i j s t,
  In s (ar_list (m_arena m i)) -> In t (ar_list (m_arena m j)) ->
  sl_base s = sl_base t -> i = j /\ s = t.
Proof.
  intros I i j s t Hs Ht E. destruct (N.eq_dec i j) as [->|Hne].
  - split; auto. pose proof (ai_nodup _ _ I j) as ND. revert Hs Ht ND.
    generalize (ar_list (m_arena m j)). induction l0 as [|x l0 IH]; intros Hs Ht ND; [destruct Hs|].
    cbn [map] in ND. inversion ND as [|? ? Hn Hd]; subst.
    destruct Hs as [->|Hs], Ht as [->|Ht]; auto.
    + destruct Hn. rewrite E. apply in_map. auto.
    + destruct Hn. rewrite <- E. apply in_map. auto.
  - destruct (ai_sep _ _ I i j s t Hne Hs Ht E).
Qed.

(** Deleting a block in use. *)
Lemma heap_del_ok h : pairwise disjoint h -> (forall b, In b h -> elem_size <= snd b) ->
  forall b, In b h ->
  exists h', heap_del h (fst b) = Ok h' /\ pairwise disjoint h' /\
    (forall x, In x h' <-> In x h /\ fst x <> fst b).
Proof.
  induction h as [|y h IH]; intros Hp Hs b Hb; [destruct Hb|].
  destruct Hp as [Hp1 Hp2]. cbn [heap_del].
  assert (Sep : forall x, In x h -> fst x <> fst y).
  { intros x Hx E. specialize (Hp1 x Hx). pose proof (Hs x (or_intror Hx)).
    pose proof (Hs y (or_introl eq_refl)). unfold disjoint, elem_size in *. lia. }
  destruct (N.eqb_spec (fst y) (fst b)) as [E|E].
  - exists h. split; auto. split; auto. intros x. split.
    + intros Hx. split; [right; auto|]. rewrite <- E. auto.
    + intros [[<-|Hx] Hn]; [congruence|auto].
  - destruct Hb as [->|Hb]; [congruence|].
    destruct (IH Hp2 (fun x H => Hs x (or_intror H)) b Hb) as (h' & E1 & E2 & E3).
    rewrite E1. cbn [rbind]. exists (y :: h'). split; auto. split.
    + split; auto. intros x Hx. apply E3 in Hx. apply Hp1. tauto.
    + intros x. cbn [In]. rewrite E3. split.
      * intros [<-|[Hx Hn]]; auto.
      * intros [[<-|Hx] Hn]; auto.
Qed.

Lemma del_all_ok l : forall h, pairwise disjoint h -> (forall b, In b h -> elem_size <= snd b) ->
  (forall s, In s l -> In (blk s) h) -> NoDup (map sl_base l) ->
  exists h', del_all h l = Ok h' /\ pairwise disjoint h' /\
    (forall x, In x h' <-> In x h /\ forall s, In s l -> fst x <> sl_base s).
Proof.
  induction l as [|s l IH]; intros h Hp Hs Hin Hnd; cbn [del_all].
  - exists h. split; auto. split; auto. intros x. split; [|tauto]. intros; split; auto; intros ? [].
  - cbn [map] in Hnd. inversion Hnd as [|? ? Hn Hd]; subst.
    destruct (heap_del_ok h Hp Hs (blk s) (Hin s (or_introl eq_refl))) as (h1 & E1 & P1 & I1).
    change (fst (blk s)) with (sl_base s) in *. rewrite E1. cbn [rbind].
    destruct (IH h1) as (h2 & E2 & P2 & I2); auto.
    + intros b Hb. apply I1 in Hb. apply Hs. tauto.
    + intros t Ht. apply I1. split; [apply Hin; right; auto|]. cbn [blk fst]. intros E. apply Hn.
      rewrite <- E. apply in_map. auto.
    + exists h2. split; auto. split; auto. intros x. rewrite I2, I1. split.
      * intros [[Ha Hb] Hc]. split; auto. intros t [<-|Ht]; auto.
      * intros [Ha Hb]. split; [split|]; auto; intros; apply Hb; [left|right]; auto.
Qed.

Lemma set_same m i a : m_arena (set_arena m i a) i = a.
Proof. cbn. rewrite N.eqb_refl. reflexivity. Qed.
Lemma set_other m i a j : j <> i -> m_arena (set_arena m i a) j = m_arena m j.
Proof. intros H. cbn. destruct (N.eqb_spec j i); [contradiction|reflexivity]. Qed.

(** Changing only the block size of an arena. *)
Lemma ainv_alloc_size m l i n : ainv m l -> size_sane n ->
  ainv (set_arena m i (Arena n (ar_used (m_arena m i)) (ar_list (m_arena m i)))) l.
Proof.
  intros I Hn.
  assert (L : forall j, ar_list (m_arena (set_arena m i (Arena n (ar_used (m_arena m i)) (ar_list (m_arena m i)))) j) =
    ar_list (m_arena m j)).
  { intros j. destruct (N.eq_dec j i) as [->|Hj]; [rewrite set_same|rewrite set_other]; auto. }
  constructor; try (intros i0); rewrite ?L; try (apply I).
  - intros j s t. rewrite !L. apply I.
  - intros Hb. destruct (ai_own _ _ I i0 Hb) as (j & s & H1 & H2). exists j, s. rewrite L. auto.
  - destruct (N.eq_dec i0 i) as [->|Hj]; [rewrite set_same|rewrite set_other]; auto. apply I.
Qed.

Lemma round8 n : 0 < n -> size_sane n ->
  let r := szt (8 * (szt (n + 7) / 8)) in
  n <= r /\ r <= 2 ^ 64 - 32 /\ r mod 8 = 0.
Proof.
  intros Hn Hs. unfold size_sane in Hs. change (2 ^ 64) with 18446744073709551616 in *.
  unfold szt. change (2 ^ 64) with 18446744073709551616.
  rewrite (N.mod_small (n + 7)) by lia.
  pose proof (N.div_mod (n + 7) 8 ltac:(lia)) as Hd. pose proof (N.mod_lt (n + 7) 8 ltac:(lia)) as Hl.
  rewrite N.mod_small by lia. cbv zeta. split; [lia|]. split.
  - set (k := (n + 7) / 8) in *. assert (k <= 2305843009213693948); [|lia].
    assert ((n + 7) / 8 < 2305843009213693949); [|unfold k; lia].
    apply N.div_lt_upper_bound; lia.
  - rewrite N.mul_comm. apply N.mod_mul. lia.
Qed.

Lemma mod8_add a b : a mod 8 = 0 -> b mod 8 = 0 -> (a + b) mod 8 = 0.
Proof. intros Ha Hb. rewrite N.add_mod, Ha, Hb by lia. reflexivity. Qed.

Lemma slab_alloc_some s n s' p : slab_ok s -> n mod 8 = 0 -> slab_alloc s n = Some (s', p) ->
  slab_ok s' /\ sl_base s' = sl_base s /\ sl_cap s' = sl_cap s /\ sl_used s' = sl_used s + n /\
  p = sl_base s + elem_size + sl_used s /\ p mod 8 = 0.
Proof.
  intros [O1 O2 O3 O4] Hn. unfold slab_alloc. destruct (N.ltb_spec (sl_cap s - sl_used s) n); [discriminate|].
  intros E. injection E as <- <-.
  assert (U : szt (sl_used s + n) = sl_used s + n) by (unfold szt; apply N.mod_small; unfold elem_size in *; lia).
  rewrite U. repeat split; auto; cbn [sl_used sl_cap sl_base]; try lia.
  - apply mod8_add; auto. apply mod8_add; auto.
Qed.

(** A region inside one slab and one in a free part of another. *)
Lemma region_apart m l i s x p n : ainv m l ->
  In s (ar_list (m_arena m i)) -> p = sl_base s + elem_size + sl_used s ->
  p + n <= sl_base s + elem_size + sl_cap s -> In x l -> disjoint (p, n) (snd x).
Proof.
  intros I Hs Hp Hn Hx. destruct x as [j a]. cbn [snd].
  destruct (ai_live _ _ I j a Hx) as (t & Ht & L1 & L2 & _).
  pose proof (ai_ok _ _ I j t Ht) as [O1 _ _ _].
  pose proof (ai_ok _ _ I i s Hs) as [O2 _ _ _].
  destruct (slabs_apart _ _ I i j s t Hs Ht) as [E|D].
  - destruct (same_slab _ _ I i j s t Hs Ht E) as [_ ->]. unfold disjoint. cbn [fst snd]. lia.
  - unfold disjoint, blk in *. cbn [fst snd] in *. lia.
Qed.

Lemma forallb_apart b h : forallb (apart b) h = true -> forall y, In y h -> disjoint b y.
Proof.
  intros H y Hy. rewrite forallb_forall in H. specialize (H y Hy). unfold apart in H.
  unfold disjoint. lia.
Qed.

(** A new slab at the head of the list of arena [i]. *)
Lemma fresh_ok m l i n k at_ : ainv m l -> 0 < n -> n <= k -> k <= 2 ^ 64 - 32 -> k mod 8 = 0 ->
  let a := m_arena m i in
  let size := N.max (ar_alloc a) k in
  let sz := szt (elem_size + size) in
  match
    (if new_ok (m_heap m) sz at_ then
      match slab_alloc (Slab at_ size 0) k with
      | Some (s, p) =>
        (Mem (m_arena (set_arena m i (Arena (ar_alloc a) (szt (ar_used a + k)) (s :: ar_list a))))
             ((at_, sz) :: m_heap m), Ok p)
      | None => (m, Er EUB)
      end
    else (m, Er EThrow))
  with
  | (m', Ok p) => ainv m' ((i, (p, n)) :: l)
  | (m', Er e) => e = EThrow /\ ainv m' l
  end.
Proof.
  intros I Hn Hnk Hk H8 a size sz.
  pose proof (ai_alloc _ _ I i) as Ha. fold a in Ha. unfold size_sane in Ha.
  change (2 ^ 64) with 18446744073709551616 in *.
  assert (Hsz : sz = elem_size + size).
  { unfold sz, szt. apply N.mod_small. change (2 ^ 64) with 18446744073709551616. unfold elem_size, size. lia. }
  destruct (new_ok (m_heap m) sz at_) eqn:En; [|auto].
  unfold new_ok in En. apply andb_true_iff in En as [En Hap]. apply andb_true_iff in En as [En Hend].
  apply andb_true_iff in En as [Hpos Hal]. apply N.ltb_lt in Hpos. apply N.eqb_eq in Hal. apply N.leb_le in Hend.
  pose proof (forallb_apart _ _ Hap) as Hnew.
  assert (Ok0 : slab_ok (Slab at_ size 0)).
  { constructor; cbn [sl_used sl_cap sl_base]; auto; try lia. }
  destruct (slab_alloc (Slab at_ size 0) k) as [[s p]|] eqn:Es.
  2:{ exfalso. unfold slab_alloc in Es. cbn [sl_cap sl_used] in Es.
      destruct (N.ltb_spec (size - 0) k) as [L|L]; [unfold size in L; lia|discriminate]. }
  destruct (slab_alloc_some _ _ _ _ Ok0 H8 Es) as (Sok & Sb & Sc & Su & Sp & Sp8).
  cbn [sl_base sl_cap sl_used] in Sb, Sc, Su, Sp.
  set (m' := Mem _ _).
  assert (La : ar_list (m_arena m' i) = s :: ar_list (m_arena m i)).
  { unfold m'. cbn [m_arena]. rewrite set_same. reflexivity. }
  assert (Lo : forall j, j <> i -> m_arena m' j = m_arena m j).
  { intros j Hj. unfold m'. cbn [m_arena]. rewrite set_other; auto. }
  assert (Ls : forall j t, In t (ar_list (m_arena m' j)) -> (j = i /\ t = s) \/ In t (ar_list (m_arena m j))).
  { intros j t Ht. destruct (N.eq_dec j i) as [->|Hj].
    - rewrite La in Ht. destruct Ht as [<-|Ht]; auto.
    - rewrite Lo in Ht; auto. }
  assert (Lr : forall j t, In t (ar_list (m_arena m j)) -> In t (ar_list (m_arena m' j))).
  { intros j t Ht. destruct (N.eq_dec j i) as [->|Hj].
    - rewrite La. right. auto.
    - rewrite Lo; auto. }
  assert (Nb : forall j t, In t (ar_list (m_arena m j)) -> sl_base t <> at_).
  { intros j t Ht E. pose proof (Hnew _ (ai_in _ _ I j t Ht)) as D. unfold disjoint, blk, elem_size in *.
    cbn [fst snd] in D. lia. }
  assert (Bs : blk s = (at_, sz)) by (unfold blk; rewrite Sb, Sc, Hsz; reflexivity).
  constructor.
  - split; [|apply I]. intros y Hy. apply Hnew. auto.
  - intros b [<-|Hb]; [cbn [snd]; lia|apply (ai_pos _ _ I b Hb)].
  - intros j t Ht. apply Ls in Ht as [[-> ->]|Ht].
    + left. auto.
    + right. apply (ai_in _ _ I j t Ht).
  - intros j t Ht. apply Ls in Ht as [[-> ->]|Ht]; auto. apply (ai_ok _ _ I j t Ht).
  - intros j. destruct (N.eq_dec j i) as [->|Hj].
    + rewrite La. cbn [map]. constructor; [|apply I]. intros Hin. apply in_map_iff in Hin as (t & E & Ht).
      rewrite Sb in E. apply (Nb i t Ht E).
    + rewrite Lo by auto. apply I.
  - intros j1 j2 t1 t2 Hj H1 H2. apply Ls in H1 as [[-> ->]|H1]; apply Ls in H2 as [[-> ->]|H2].
    + congruence.
    + rewrite Sb. intros E. apply (Nb j2 t2 H2). auto.
    + rewrite Sb. apply (Nb j1 t1 H1).
    + apply (ai_sep _ _ I j1 j2); auto.
  - intros b [<-|Hb].
    + exists i, s. rewrite La. split; [left|]; auto.
    + destruct (ai_own _ _ I b Hb) as (j & t & Ht & E). exists j, t. auto.
  - intros j x [E|Hx].
    + injection E as <- <-. exists s. rewrite La. split; [left; auto|]. unfold in_slab. cbn [fst snd].
      split; [lia|]. split; [lia|auto].
    + destruct (ai_live _ _ I j x Hx) as (t & Ht & L). exists t. auto.
  - split; [|apply I]. intros y Hy. destruct y as [j x]. cbn [snd].
    destruct (ai_live _ _ I j x Hy) as (t & Ht & L1 & L2 & _).
    pose proof (Hnew _ (ai_in _ _ I j t Ht)) as D. pose proof (ai_ok _ _ I j t Ht) as [O1 _ _ _].
    unfold disjoint, blk, elem_size in *. cbn [fst snd] in *. unfold size in *. lia.
  - intros j. destruct (N.eq_dec j i) as [->|Hj].
    + unfold m'. cbn [m_arena]. rewrite set_same. apply I.
    + rewrite Lo by auto. apply I.
Qed.

Lemma alloc_ok m l i n at_ : ainv m l -> 0 < n -> size_sane n ->
  match arena_alloc m i n at_ with
  | (m', Ok p) => ainv m' ((i, (p, n)) :: l)
  | (m', Er e) => e = EThrow /\ ainv m' l
  end.
Proof.
  intros I Hn Hs. unfold arena_alloc. destruct (N.eqb_spec n 0); [lia|].
  destruct (round8 n Hn Hs) as (R1 & R2 & R3). cbv zeta in R1, R2, R3.
  set (k := szt (8 * (szt (n + 7) / 8))) in *. clearbody k. cbv zeta.
  pose proof (fresh_ok m l i n k at_ I Hn R1 R2 R3) as F. cbv zeta in F.
  destruct (ar_list (m_arena m i)) as [|s rest] eqn:El; [exact F|].
  destruct (slab_alloc s k) as [[s' p]|] eqn:Es; [|exact F]. clear F.
  assert (Hs_in : In s (ar_list (m_arena m i))) by (rewrite El; left; auto).
  pose proof (ai_ok _ _ I i s Hs_in) as Sok.
  destruct (slab_alloc_some _ _ _ _ Sok R3 Es) as (Sok' & Sb & Sc & Su & Sp & Sp8).
  set (m' := set_arena m i _).
  assert (La : ar_list (m_arena m' i) = s' :: rest) by (unfold m'; rewrite set_same; reflexivity).
  assert (Lo : forall j, j <> i -> m_arena m' j = m_arena m j).
  { intros j Hj. unfold m'. rewrite set_other; auto. }
  assert (Hh : m_heap m' = m_heap m) by reflexivity.
  assert (Bs : blk s' = blk s) by (unfold blk; rewrite Sb, Sc; reflexivity).
  (* every slab of the new state was there, with the same block *)
  assert (Ls : forall j t, In t (ar_list (m_arena m' j)) ->
    exists t0, In t0 (ar_list (m_arena m j)) /\ blk t0 = blk t /\ slab_ok t).
  { intros j t Ht. destruct (N.eq_dec j i) as [->|Hj].
    - rewrite La in Ht. destruct Ht as [<-|Ht].
      + exists s. auto.
      + exists t. assert (In t (ar_list (m_arena m i))) by (rewrite El; right; auto).
        split; auto. split; auto. apply (ai_ok _ _ I i t); auto.
    - rewrite Lo in Ht by auto. exists t. split; auto. split; auto. apply (ai_ok _ _ I j t); auto. }
  assert (Lr : forall j t, In t (ar_list (m_arena m j)) ->
    exists t1, In t1 (ar_list (m_arena m' j)) /\ blk t1 = blk t /\ sl_used t <= sl_used t1).
  { intros j t Ht. destruct (N.eq_dec j i) as [->|Hj].
    - rewrite El in Ht. rewrite La. destruct Ht as [<-|Ht].
      + exists s'. split; [left; auto|]. split; [auto|lia].
      + exists t. split; [right; auto|]. split; [auto|lia].
    - exists t. rewrite Lo by auto. split; [auto|]. split; [auto|lia]. }
  constructor.
  - rewrite Hh. apply I.
  - rewrite Hh. apply I.
  - intros j t Ht. rewrite Hh. destruct (Ls j t Ht) as (t0 & H0 & <- & _). apply (ai_in _ _ I j); auto.
  - intros j t Ht. destruct (Ls j t Ht) as (t0 & _ & _ & Hok). auto.
  - intros j. destruct (N.eq_dec j i) as [->|Hj].
    + rewrite La. cbn [map]. rewrite Sb. pose proof (ai_nodup _ _ I i) as ND. rewrite El in ND. exact ND.
    + rewrite Lo by auto. apply I.
  - intros j1 j2 t1 t2 Hj H1 H2.
    destruct (Ls _ _ H1) as (u1 & I1 & E1 & _). destruct (Ls _ _ H2) as (u2 & I2 & E2 & _).
    pose proof (ai_sep _ _ I j1 j2 u1 u2 Hj I1 I2) as Hne. unfold blk in E1, E2. congruence.
  - intros b Hb. rewrite Hh in Hb. destruct (ai_own _ _ I b Hb) as (j & t & Ht & E).
    destruct (Lr j t Ht) as (t1 & H1 & E1 & _). exists j, t1. split; auto. congruence.
  - intros j x [E|Hx].
    + injection E as <- <-. exists s'. rewrite La. split; [left; auto|]. unfold in_slab. cbn [fst snd].
      split; [lia|]. split; [lia|auto].
    + destruct (ai_live _ _ I j x Hx) as (t & Ht & L1 & L2 & L3).
      destruct (Lr j t Ht) as (t1 & H1 & E1 & Hu). exists t1. split; auto.
      unfold in_slab. unfold blk in E1. injection E1 as E1 E1'. rewrite E1. split; [lia|]. split; [lia|auto].
  - split; [|apply I]. intros y Hy. cbn [snd].
    apply (region_apart m l i s); auto. destruct Sok'. lia.
  - intros j. destruct (N.eq_dec j i) as [->|Hj].
    + unfold m'. rewrite set_same. apply I.
    + rewrite Lo by auto. apply I.
Qed.

Lemma clear_ok m l i : ainv m l ->
  exists m', arena_clear m i = Ok m' /\ ainv m' (drop_owner i l) /\ ar_list (m_arena m' i) = [] /\
    (forall j, j <> i -> m_arena m' j = m_arena m j) /\
    (forall j, ar_alloc (m_arena m' j) = ar_alloc (m_arena m j)).
Proof.
  intros I. unfold arena_clear. cbv zeta.
  destruct (del_all_ok (ar_list (m_arena m i)) (m_heap m) (ai_heap _ _ I) (ai_pos _ _ I)
    (ai_in _ _ I i) (ai_nodup _ _ I i)) as (h & E & P & Hin).
  rewrite E. cbn [rbind]. eexists. split; [reflexivity|]. set (m' := Mem _ _).
  assert (La : ar_list (m_arena m' i) = []) by (unfold m'; cbn [m_arena]; rewrite set_same; reflexivity).
  assert (Lo : forall j, j <> i -> m_arena m' j = m_arena m j).
  { intros j Hj. unfold m'. cbn [m_arena]. rewrite set_other; auto. }
  assert (Lz : forall j, ar_alloc (m_arena m' j) = ar_alloc (m_arena m j)).
  { intros j. destruct (N.eq_dec j i) as [->|Hj]; [|rewrite Lo; auto]. unfold m'. cbn [m_arena]. rewrite set_same. auto. }
  split; [|split; auto].
  assert (Hh : m_heap m' = h) by reflexivity.
  assert (Ls : forall j t, In t (ar_list (m_arena m' j)) -> j <> i /\ In t (ar_list (m_arena m j))).
  { intros j t Ht. destruct (N.eq_dec j i) as [->|Hj]; [rewrite La in Ht; destruct Ht|].
    rewrite Lo in Ht; auto. }
  constructor.
  - rewrite Hh. auto.
  - rewrite Hh. intros b Hb. apply Hin in Hb. apply (ai_pos _ _ I). tauto.
  - intros j t Ht. apply Ls in Ht as [Hj Ht]. rewrite Hh. apply Hin. split; [apply (ai_in _ _ I j t Ht)|].
    intros s Hs. apply (ai_sep _ _ I j i t s Hj Ht Hs).
  - intros j t Ht. apply Ls in Ht as [Hj Ht]. apply (ai_ok _ _ I j t Ht).
  - intros j. destruct (N.eq_dec j i) as [->|Hj]; [rewrite La; constructor|]. rewrite Lo by auto. apply I.
  - intros j1 j2 t1 t2 Hj H1 H2. apply Ls in H1 as [_ H1]. apply Ls in H2 as [_ H2].
    apply (ai_sep _ _ I j1 j2); auto.
  - intros b Hb. rewrite Hh in Hb. apply Hin in Hb as [Hb Hn].
    destruct (ai_own _ _ I b Hb) as (j & t & Ht & Et). exists j, t. split; auto.
    destruct (N.eq_dec j i) as [->|Hj]; [|rewrite Lo; auto]. destruct (Hn t Ht). rewrite Et. reflexivity.
  - intros j x Hx. apply filter_In in Hx as [Hx Hj]. cbn [fst] in Hj.
    destruct (N.eqb_spec j i); [discriminate|].
    destruct (ai_live _ _ I j x Hx) as (t & Ht & L). exists t. rewrite Lo; auto.
  - apply pairwise_filter. apply I.
  - intros j. rewrite Lz. apply I.
Qed.

(** Renaming arenas. *)
Lemma permute_ok m l m' (f g : N -> N) : ainv m l ->
  (forall i, g (f i) = i) -> (forall i, f (g i) = i) ->
  m_heap m' = m_heap m ->
  (forall i, ar_list (m_arena m' (f i)) = ar_list (m_arena m i)) ->
  (forall i, size_sane (ar_alloc (m_arena m' i))) ->
  ainv m' (rename f l).
Proof.
  intros I Hgf Hfg Hh Hl Ha.
  assert (Hl' : forall i, ar_list (m_arena m' i) = ar_list (m_arena m (g i))).
  { intros i. rewrite <- Hl, Hfg. reflexivity. }
  constructor; rewrite ?Hh; try (apply I); auto.
  - intros i s. rewrite Hl'. apply I.
  - intros i s. rewrite Hl'. apply I.
  - intros i. rewrite Hl'. apply I.
  - intros i j s t Hij. rewrite !Hl'. apply I. intros E. apply Hij. rewrite <- (Hfg i), E. auto.
  - intros b Hb. destruct (ai_own _ _ I b Hb) as (i & s & Hs & E). exists (f i), s. rewrite Hl. auto.
  - intros i x Hx. apply in_map_iff in Hx as ([j y] & E & Hy). cbn [fst snd] in E. injection E as <- <-.
    rewrite Hl. apply (ai_live _ _ I j y Hy).
  - apply pairwise_rename. apply I.
Qed.

Lemma swap_ok m l i j : ainv m l ->
  ainv (arena_swap m i j) (rename (fun k => if k =? i then j else if k =? j then i else k) l).
Proof.
  intros I. set (f := fun k => if k =? i then j else if k =? j then i else k).
  assert (Hff : forall k, f (f k) = k).
  { intros k. unfold f. destruct (N.eqb_spec k i) as [->|H1].
    - destruct (N.eqb_spec j i) as [->|H2]; auto. rewrite N.eqb_refl. auto.
    - destruct (N.eqb_spec k j) as [->|H2].
      + rewrite N.eqb_refl. auto.
      + destruct (N.eqb_spec k i); [contradiction|]. destruct (N.eqb_spec k j); [contradiction|auto]. }
  apply (permute_ok m l _ f f); auto.
  - intros k. unfold arena_swap, f. cbn [set_arena m_arena].
    destruct (N.eqb_spec k i) as [->|H1].
    + rewrite N.eqb_refl. reflexivity.
    + destruct (N.eqb_spec k j) as [->|H2].
      * destruct (N.eqb_spec i j) as [E|H3]; [congruence|]. rewrite N.eqb_refl. reflexivity.
      * destruct (N.eqb_spec k j); [contradiction|]. destruct (N.eqb_spec k i); [contradiction|auto].
  - intros k. unfold arena_swap. cbn [set_arena m_arena].
    destruct (k =? j); [apply I|]. destruct (k =? i); [apply I|]. apply I.
Qed.

Lemma move_ok m l i j : ainv m l ->
  exists m', arena_move m i j = Ok m' /\
    ainv m' (rename (fun k => if k =? i then j else k) (drop_owner j l)).
Proof.
  intros I. destruct (clear_ok m l j I) as (m1 & E & I1 & La & Lo & Lz).
  unfold arena_move. rewrite E. cbn [rbind]. eexists. split; [reflexivity|]. cbv zeta.
  set (m' := set_arena _ _ _).
  (* the allocations of j are gone, so the renaming is a permutation *)
  set (f := fun k => if k =? i then j else if k =? j then i else k).
  assert (Hff : forall k, f (f k) = k).
  { intros k. unfold f. destruct (N.eqb_spec k i) as [->|H1].
    - destruct (N.eqb_spec j i) as [->|H2]; auto. rewrite N.eqb_refl. auto.
    - destruct (N.eqb_spec k j) as [->|H2].
      + rewrite N.eqb_refl. auto.
      + destruct (N.eqb_spec k i); [contradiction|]. destruct (N.eqb_spec k j); [contradiction|auto]. }
  replace (rename (fun k => if k =? i then j else k) (drop_owner j l)) with (rename f (drop_owner j l)).
  2:{ unfold rename. apply map_ext_in. intros x Hx. apply filter_In in Hx as [_ Hx]. f_equal. unfold f.
      destruct (fst x =? i); auto. destruct (fst x =? j); [discriminate|auto]. }
  apply (permute_ok m1 _ m' f f); auto.
  - intros k. unfold m', f. cbn [set_arena m_arena].
    destruct (N.eqb_spec k i) as [->|H1].
    + rewrite N.eqb_refl. reflexivity.
    + destruct (N.eqb_spec k j) as [->|H2].
      * destruct (N.eqb_spec i j) as [E'|H3]; [congruence|]. rewrite N.eqb_refl. rewrite La. reflexivity.
      * destruct (N.eqb_spec k j); [contradiction|]. destruct (N.eqb_spec k i); [contradiction|auto].
  - intros k. unfold m'. cbn [set_arena m_arena].
    destruct (k =? j); [apply I1|]. destruct (k =? i); [|apply I1].
    cbn. unfold size_sane. lia.
Qed.

Lemma step_ok o m l : sane o -> ainv m l ->
  exists m' l', arena_step o m l = Ok (m', l') /\ ainv m' l'.
Proof.
  intros Ho I. destruct o as [i n at_|i|i n|i r|i j|i j]; cbn [sane arena_step] in *.
  - destruct Ho as [H1 H2]. pose proof (alloc_ok m l i n at_ I H1 H2) as A.
    destruct (arena_alloc m i n at_) as [m' [p|e]].
    + eauto.
    + destruct A as [-> A]. eauto.
  - destruct (clear_ok m l i I) as (m' & E & I' & _). rewrite E. cbn [rbind]. eauto.
  - eexists. eexists. split; [reflexivity|]. apply ainv_alloc_size; auto.
  - eexists. eexists. split; [reflexivity|]. unfold arena_periodic. cbv zeta.
    pose proof (ai_alloc _ _ I i) as Ha.
    destruct (N.leb_spec (szt (ar_alloc (m_arena m i) * 2)) r).
    + apply ainv_alloc_size; auto. rewrite N.max_l; auto.
    + destruct (N.leb_spec r (ar_alloc (m_arena m i) / 2)); auto.
      apply ainv_alloc_size; auto. unfold size_sane in *.
      pose proof (N.div_le_mono (ar_alloc (m_arena m i)) (2 ^ 64 - 32) 2 ltac:(lia) Ha) as D.
      change (2 ^ 64 - 32) with 18446744073709551584 in *.
      change (18446744073709551584 / 2) with 9223372036854775792 in D. lia.
  - eexists. eexists. split; [reflexivity|]. apply swap_ok; auto.
  - destruct (move_ok m l i j I) as (m' & E & I'). rewrite E. cbn [rbind]. eauto.
Qed.

Lemma ainv0 : ainv mem0 [].
Proof.
  constructor; cbn; auto; try tauto.
  - intros. constructor.
  - intros i. unfold size_sane. lia.
Qed.

Lemma run_ok os : Forall sane os -> forall m l, ainv m l ->
  exists m' l', arena_run os m l = Ok (m', l') /\ ainv m' l'.
Proof.
  induction 1 as [|o os Ho Hos IH]; intros m l I; cbn [arena_run]; eauto.
  destruct (step_ok o m l Ho I) as (m' & l' & E & I'). rewrite E. cbn [rbind]. auto.
Qed.

Lemma ainv_inside m l : ainv m l -> forall x, In x l -> inside (m_heap m) (snd x).
Proof.
  intros I [i a] Hx. destruct (ai_live _ _ I i a Hx) as (s & Hs & L1 & L2 & L3).
  exists (blk s). split; [apply (ai_in _ _ I i s Hs)|]. pose proof (ai_ok _ _ I i s Hs) as [O _ _ _].
  unfold blk. cbn [fst snd]. split; [lia|]. split; [lia|auto].
Qed.
