(** Buckets as sorted lists of entries. *)
From Coq Require Export Sorting.Sorted Sorting.Permutation.
From Verif Require Import Model.Bytes Model.Err Model.Field Model.Format Model.IO
  Model.BulkIO Model.Bucket Proofs.BytesFacts Proofs.FieldFacts Proofs.IOFacts.

Global Arguments wr16 : simpl never.
Global Arguments wr24 : simpl never.
Global Arguments wr32 : simpl never.
Global Arguments wr48 : simpl never.
Global Arguments wr64 : simpl never.
Global Arguments rd16 : simpl never.
Global Arguments rd48 : simpl never.
Global Arguments rd64 : simpl never.
Global Arguments rd_size48 : simpl never.
Global Arguments bucket_size : simpl never.
Global Arguments bucket_capacity : simpl never.
Global Arguments bucket_index : simpl never.
Global Arguments enc_entry : simpl never.
Global Arguments bk_at : simpl never.
Global Arguments bk_insert : simpl never.
Global Arguments bk_erase : simpl never.
Global Arguments bk_lower_bound : simpl never.
Global Arguments bk_full : simpl never.
Global Arguments bk_read : simpl never.
Global Arguments fuel : simpl never.
Global Arguments loop : simpl never.

(** An entry whose fields fit their widths. *)
Definition entry_ok (en : entry) : Prop :=
  en_off en < 281474976710656 /\ en_size en < 4294967296 /\ en_hash en < 281474976710656.

(** Compact image of a bucket. *)
Definition enc_entries (es : list entry) : bytes := flat_map enc_entry es.
Definition enc_bucket (es : list entry) (spill : N) : bytes :=
  wr16 (blen es) ++ wr48 spill ++ enc_entries es.

(** Image of a bucket as a key file block. *)
Definition enc_block (bs : N) (es : list entry) (spill : N) : bytes :=
  enc_bucket es spill ++ zeros (bs - bucket_size (blen es)).

(** Sorted by hash. *)
Definition ssorted (es : list entry) : Prop :=
  StronglySorted (fun a b => en_hash a <= en_hash b) es.

(** The bucket [b] of block size [bs] holds the entries [es] and the spill offset. *)
Record bk_rep (bs : N) (b : bucket) (es : list entry) (spill : N) : Prop := BkRep {
  rep_size : bk_size b = blen es;
  rep_spill : bk_spill b = spill;
  rep_blob : exists pad, bk_blob b = enc_bucket es spill ++ pad;
  rep_len : blen (bk_blob b) = bs;
  rep_ok : Forall entry_ok es;
  rep_spill_lt : spill < 281474976710656;
  rep_cap : blen es <= bucket_capacity bs }.

Lemma blen_enc_entry en : blen (enc_entry en) = 18.
Proof. reflexivity. Qed.

Lemma blen_enc_entries es : blen (enc_entries es) = blen es * 18.
Proof.
  induction es as [|x es IH]; [reflexivity|].
  change (enc_entries (x :: es)) with (enc_entry x ++ enc_entries es). rewrite blen_app, blen_cons, IH, blen_enc_entry. lia.
Qed.

Lemma blen_enc_bucket es spill : blen (enc_bucket es spill) = bucket_size (blen es).
Proof.
  unfold enc_bucket, bucket_size.
  rewrite !blen_app, blen_wr16, blen_wr48, blen_enc_entries. lia.
Qed.

Lemma enc_entries_app a b : enc_entries (a ++ b) = enc_entries a ++ enc_entries b.
Proof. apply flat_map_app. Qed.

Lemma cap_bound bs : bucket_size (bucket_capacity bs) <= bs \/ bucket_capacity bs = 0.
Proof.
  unfold bucket_size, bucket_capacity, key_hdr_size.
  destruct ((bs <? 104) || (bs <? 2 + 6)) eqn:E; [right; auto|left].
  pose proof (N.mul_div_le (bs - (2 + 6)) (6 + 6 + 6)). lia.
Qed.

Lemma cap_le bs : bs <= 65535 -> bucket_capacity bs < 65536.
Proof.
  intros. unfold bucket_capacity.
  destruct ((bs <? key_hdr_size) || (bs <? 2 + 6)); [lia|].
  apply N.div_lt_upper_bound; lia.
Qed.

Lemma block_size_min bs : 1 <= bucket_capacity bs -> 104 <= bs.
Proof.
  unfold bucket_capacity, key_hdr_size.
  destruct ((bs <? 104) || (bs <? 2 + 6)) eqn:E; [lia|].
  apply orb_false_iff in E. lia.
Qed.

Lemma rep_fits bs b es spill :
  bk_rep bs b es spill -> blen es <> 0 -> bucket_size (blen es) <= bs.
Proof.
  intros H Hn. destruct (cap_bound bs) as [E|E]; pose proof (rep_cap _ _ _ _ H).
  - unfold bucket_size in *. lia.
  - lia.
Qed.

Lemma rep_size_le bs b es spill : bk_rep bs b es spill -> bucket_size (blen es) <= bs.
Proof.
  intros H. destruct (rep_blob _ _ _ _ H) as [pad Hp].
  pose proof (rep_len _ _ _ _ H) as Hl. rewrite Hp, blen_app, blen_enc_bucket in Hl. lia.
Qed.

Lemma bk_of_blob_rep bs p es spill pad :
  p = enc_bucket es spill ++ pad -> blen p = bs -> Forall entry_ok es ->
  spill < 281474976710656 -> blen es <= bucket_capacity bs -> bs <= 65535 ->
  bk_rep bs (bk_of_blob p) es spill.
Proof.
  intros Hp Hl Hes Hs Hc Hb. subst p. constructor; cbn [bk_of_blob bk_size bk_spill bk_blob]; eauto.
  - unfold enc_bucket. rewrite <- !app_assoc.
    replace (bsub 0 2 _) with (wr16 (blen es)) by (symmetry; apply (bsub_app_eq 0 2 []); reflexivity).
    apply rd_wr16. pose proof (cap_le bs). lia.
  - unfold enc_bucket. rewrite <- !app_assoc.
    rewrite bsub_app_eq by reflexivity. apply rd_wr48; auto.
Qed.

Lemma bk_empty_rep bs : 1 <= bucket_capacity bs -> bk_rep bs (bk_empty bs) [] 0.
Proof.
  intros H. pose proof (block_size_min _ H). constructor; cbn [bk_empty bk_size bk_spill bk_blob]; auto; try reflexivity; try lia.
  - exists (zeros (bs - 8)). 
    change (enc_bucket [] 0) with (zeros 8). rewrite zeros_app. f_equal. lia.
  - apply blen_zeros.
  - rewrite blen_nil; lia.
Qed.

(** Entries. *)
Definition en0 : entry := Entry 0 0 0.

Lemma enc_entries_sub es i :
  i < blen es -> bsub (i * 18) 18 (enc_entries es) = enc_entry (nthN es i en0).
Proof.
  unfold nthN. intros Hi.
  assert (E : es = btake i es ++ nth (N.to_nat i) es en0 :: bdrop (i + 1) es).
  { unfold btake, bdrop. replace (N.to_nat (i + 1)) with (Datatypes.S (N.to_nat i)) by lia.
    assert (H : (N.to_nat i < length es)%nat) by (unfold blen in Hi; lia).
    revert H. generalize (N.to_nat i). clear.
    intros n; revert es; induction n as [|n IH]; intros [|x es] H; simpl in *; try lia; auto.
    f_equal. apply IH. lia. }
  rewrite E at 1. rewrite enc_entries_app.
  apply (bsub_app_eq _ _ (enc_entries (btake i es)) (enc_entry (nth (N.to_nat i) es en0))
    (enc_entries (bdrop (i + 1) es))).
  - rewrite blen_enc_entries, blen_btake. lia.
  - reflexivity.
Qed.

Lemma dec_entry en :
  entry_ok en ->
  Entry (rd48 (bsub 0 6 (enc_entry en))) (rd_size48 (bsub 6 6 (enc_entry en)))
    (rd48 (bsub 12 6 (enc_entry en))) = en.
Proof.
  intros (H1 & H2 & H3). destruct en as [o s h]; simpl in *. unfold enc_entry; simpl en_off; simpl en_size; simpl en_hash.
  change (bsub 0 6 (wr48 o ++ wr48 s ++ wr48 h)) with (wr48 o).
  change (bsub 6 6 (wr48 o ++ wr48 s ++ wr48 h)) with (wr48 s).
  change (bsub 12 6 (wr48 o ++ wr48 s ++ wr48 h)) with (wr48 h).
  rewrite !rd_wr48, rd_size48_wr48; auto.
Qed.

Lemma nthN_In {A} (l : list A) i d : i < blen l -> In (nthN l i d) l.
Proof. intros. apply nth_In. unfold blen in *; lia. Qed.

Lemma rep_entry_sub bs b es spill i :
  bk_rep bs b es spill -> i < blen es ->
  bsub (8 + i * 18) 18 (bk_blob b) = enc_entry (nthN es i en0).
Proof.
  intros H Hi. destruct (rep_blob _ _ _ _ H) as [pad ->].
  unfold enc_bucket. rewrite <- !app_assoc, app_assoc.
  rewrite bsub_app_r by (rewrite blen_app, blen_wr16, blen_wr48; lia).
  rewrite blen_app, blen_wr16, blen_wr48. replace (8 + i * 18 - (2 + 6)) with (i * 18) by lia.
  rewrite bsub_app_l by (rewrite blen_enc_entries; lia).
  apply enc_entries_sub; auto.
Qed.

Lemma bk_at_rep bs b es spill i :
  bk_rep bs b es spill -> i < blen es -> bk_at b i = nthN es i en0.
Proof.
  intros H Hi. unfold bk_at. rewrite (rep_entry_sub _ _ _ _ _ H Hi).
  apply dec_entry. pose proof (rep_ok _ _ _ _ H) as Ho.
  rewrite Forall_forall in Ho. apply Ho, nthN_In; auto.
Qed.

Lemma bk_hash_at_rep bs b es spill i :
  bk_rep bs b es spill -> i < blen es -> bk_hash_at b i = en_hash (nthN es i en0).
Proof.
  intros H Hi. unfold bk_hash_at.
  replace (bsub (20 + i * 18) 6 (bk_blob b)) with (bsub 12 6 (bsub (8 + i * 18) 18 (bk_blob b)))
    by (rewrite bsub_bsub by lia; f_equal; lia).
  change (rd48 (bsub 12 6 (bsub (8 + i * 18) 18 (bk_blob b)))) with (en_hash (bk_at b i)).
  rewrite (bk_at_rep _ _ _ _ _ H Hi). auto.
Qed.

(** Binary search. *)
Lemma lb_loop_eq b h n first count :
  (N.size_nat count < n)%nat ->
  lb_loop n b h first count =
  if count =? 0 then first
  else
    let step := count / 2 in
    let i := first + step in
    if bk_hash_at b i <? h
    then lb_loop (Datatypes.S (N.size_nat (count - (step + 1)))) b h (i + 1) (count - (step + 1))
    else lb_loop (Datatypes.S (N.size_nat step)) b h first step.
Proof.
  assert (Irr : forall n m first count, (N.size_nat count < n)%nat -> (N.size_nat count < m)%nat ->
            lb_loop n b h first count = lb_loop m b h first count).
  { clear. intros n; induction n as [|n IH]; intros m first count Hn Hm; [lia|].
    destruct m as [|m]; [lia|]. simpl. destruct (count =? 0) eqn:E; auto.
    assert (Hs : forall c, c <= count / 2 -> (N.size_nat c < N.size_nat count)%nat).
    { intros c Hc. destruct count as [|p]; [simpl in E; discriminate|].
      assert (c < N.pos p) by (pose proof (N.div_lt (N.pos p) 2); lia).
      destruct (N.eq_dec c 0) as [->|Hc0]; [simpl; destruct p; simpl; lia|].
      assert (Hl : forall x, x <> 0 -> N.size_nat x = Datatypes.S (N.to_nat (N.log2 x))).
      { clear. intros [|p] Hx; [congruence|]. clear Hx.
        rewrite <- (Nat2N.id (N.size_nat (N.pos p))).
        assert (N.of_nat (N.size_nat (N.pos p)) = N.size (N.pos p)) as ->.
        { simpl. induction p; simpl; auto; lia. }
        rewrite N.size_log2 by lia. lia. }
      rewrite !Hl by lia.
      assert (N.log2 c < N.log2 (N.pos p)); [|lia].
      assert (N.log2 (2 * c) = N.succ (N.log2 c)) by (apply N.log2_double; lia).
      assert (N.log2 (2 * c) <= N.log2 (N.pos p)); [|lia].
      apply N.log2_le_mono. pose proof (N.mul_div_le (N.pos p) 2). lia. }
    destruct (bk_hash_at b (first + count / 2) <? h); apply IH.
    - pose proof (Hs (count - (count / 2 + 1))).
      assert (count - (count / 2 + 1) <= count / 2); [|lia].
      pose proof (N.div_mod count 2). pose proof (N.mod_lt count 2). lia.
    - pose proof (Hs (count - (count / 2 + 1))).
      assert (count - (count / 2 + 1) <= count / 2); [|lia].
      pose proof (N.div_mod count 2). pose proof (N.mod_lt count 2). lia.
    - pose proof (Hs (count / 2)). lia.
    - pose proof (Hs (count / 2)). lia. }
  intros Hn. destruct n as [|n]; [lia|].
  simpl lb_loop at 1. destruct (count =? 0) eqn:E; auto.
  assert (Hs : forall c, c <= count / 2 -> (N.size_nat c < N.size_nat count)%nat).
  { intros c Hc. destruct count as [|p]; [simpl in E; discriminate|].
    assert (c < N.pos p) by (pose proof (N.div_lt (N.pos p) 2); lia).
    destruct (N.eq_dec c 0) as [->|Hc0]; [simpl; destruct p; simpl; lia|].
    assert (Hl : forall x, x <> 0 -> N.size_nat x = Datatypes.S (N.to_nat (N.log2 x))).
    { clear. intros [|p] Hx; [congruence|]. clear Hx.
      rewrite <- (Nat2N.id (N.size_nat (N.pos p))).
      assert (N.of_nat (N.size_nat (N.pos p)) = N.size (N.pos p)) as ->.
      { simpl. induction p; simpl; auto; lia. }
      rewrite N.size_log2 by lia. lia. }
    rewrite !Hl by lia.
    assert (N.log2 c < N.log2 (N.pos p)); [|lia].
    assert (N.log2 (2 * c) = N.succ (N.log2 c)) by (apply N.log2_double; lia).
    assert (N.log2 (2 * c) <= N.log2 (N.pos p)); [|lia].
    apply N.log2_le_mono. pose proof (N.mul_div_le (N.pos p) 2). lia. }
  cbv zeta. destruct (bk_hash_at b (first + count / 2) <? h); apply Irr; try lia.
  - pose proof (Hs (count - (count / 2 + 1))).
    assert (count - (count / 2 + 1) <= count / 2); [|lia].
    pose proof (N.div_mod count 2). pose proof (N.mod_lt count 2). lia.
  - pose proof (Hs (count / 2)). lia.
Qed.

(** Number of entries with a smaller hash: where a new entry goes. *)
Fixpoint lb (es : list entry) (h : N) : N :=
  match es with
  | [] => 0
  | x :: r => if en_hash x <? h then 1 + lb r h else 0
  end.

Lemma lb_le es h : lb es h <= blen es.
Proof.
  induction es as [|x es IH]; cbn [lb]; [lia|]. rewrite blen_cons.
  destruct (en_hash x <? h); lia.
Qed.

Lemma nthN_cons {A} (x : A) l i d : nthN (x :: l) (i + 1) d = nthN l i d.
Proof. unfold nthN. replace (N.to_nat (i + 1)) with (Datatypes.S (N.to_nat i)) by lia. auto. Qed.

Lemma lb_below es h i : i < lb es h -> en_hash (nthN es i en0) < h.
Proof.
  revert i; induction es as [|x es IH]; cbn [lb]; intros i Hi; [lia|].
  destruct (en_hash x <? h) eqn:E; [|lia].
  destruct (N.eq_dec i 0) as [->|Hi0]; [unfold nthN; simpl; lia|].
  replace i with (i - 1 + 1) by lia. rewrite nthN_cons. apply IH. lia.
Qed.

Lemma ssorted_nth es i j :
  ssorted es -> i <= j -> j < blen es ->
  en_hash (nthN es i en0) <= en_hash (nthN es j en0).
Proof.
  intros Hs; revert i j; induction Hs as [|x es Hs IH Hx]; intros i j Hij Hj.
  - rewrite blen_nil in Hj; lia.
  - rewrite blen_cons in Hj. rewrite Forall_forall in Hx.
    destruct (N.eq_dec i 0) as [->|Hi0].
    + destruct (N.eq_dec j 0) as [->|Hj0]; [lia|].
      replace j with (j - 1 + 1) by lia. rewrite nthN_cons. unfold nthN at 1; simpl.
      apply Hx. apply nthN_In; lia.
    + replace i with (i - 1 + 1) by lia. replace j with (j - 1 + 1) by lia.
      rewrite !nthN_cons. apply IH; lia.
Qed.

Lemma lb_above es h i : ssorted es -> lb es h <= i -> i < blen es -> h <= en_hash (nthN es i en0).
Proof.
  intros Hs Hi Hl.
  assert (Hf : lb es h < blen es) by lia.
  assert (h <= en_hash (nthN es (lb es h) en0)).
  { clear Hi Hl Hs. induction es as [|x es IH]; cbn [lb] in *; [unfold blen in Hf; simpl in Hf; lia|].
    rewrite blen_cons in Hf.
    destruct (en_hash x <? h) eqn:E.
    - rewrite N.add_comm, nthN_cons. apply IH. lia.
    - unfold nthN; simpl. lia. }
  pose proof (ssorted_nth es (lb es h) i Hs Hi Hl). lia.
Qed.

Lemma lb_unique es h k :
  ssorted es -> k <= blen es ->
  (forall i, i < k -> en_hash (nthN es i en0) < h) ->
  (forall i, k <= i -> i < blen es -> h <= en_hash (nthN es i en0)) ->
  k = lb es h.
Proof.
  intros Hs Hk H1 H2. pose proof (lb_le es h).
  destruct (N.lt_trichotomy k (lb es h)) as [L|[E|L]]; auto.
  - pose proof (lb_below es h k L). specialize (H2 k). lia.
  - assert (lb es h < blen es) as L2 by lia.
    pose proof (lb_above es h (lb es h) Hs ltac:(lia) L2). specialize (H1 _ L). lia.
Qed.

Lemma lb_loop_rep bs b es spill h n first count :
  bk_rep bs b es spill -> ssorted es -> (N.size_nat count < n)%nat ->
  first + count <= blen es ->
  (forall i, i < first -> en_hash (nthN es i en0) < h) ->
  (forall i, first + count <= i -> i < blen es -> h <= en_hash (nthN es i en0)) ->
  lb_loop n b h first count = lb es h.
Proof.
  intros Hb Hs. revert n first.
  induction count as [count IH] using (well_founded_induction N.lt_wf_0).
  intros n first Hn Hc H1 H2. rewrite lb_loop_eq by auto.
  destruct (N.eqb_spec count 0) as [->|Hc0].
  - apply lb_unique; auto; try lia. intros i Hi Hl; apply H2; lia.
  - cbv zeta. set (step := count / 2).
    assert (step < count) by (apply N.div_lt; lia).
    rewrite (bk_hash_at_rep _ _ _ _ _ Hb) by lia.
    destruct (N.ltb_spec (en_hash (nthN es (first + step) en0)) h) as [L|L].
    + apply IH; try lia.
      * intros i Hi. destruct (N.lt_trichotomy i (first + step)) as [?|[->|?]]; try lia.
        -- pose proof (ssorted_nth es i (first + step) Hs). lia.
      * intros i Hi Hl. apply H2; lia.
    + apply IH; try lia; auto.
      intros i Hi Hl. pose proof (ssorted_nth es (first + step) i Hs). lia.
Qed.

Lemma lower_bound_rep bs b es spill h :
  bk_rep bs b es spill -> ssorted es -> bk_lower_bound b h = lb es h.
Proof.
  intros Hb Hs. unfold bk_lower_bound. rewrite (rep_size _ _ _ _ Hb).
  eapply lb_loop_rep; eauto; intros; lia.
Qed.

(** Insertion before the first entry whose hash is not smaller. *)
Fixpoint ins (es : list entry) (en : entry) : list entry :=
  match es with
  | [] => [en]
  | x :: r => if en_hash x <? en_hash en then x :: ins r en else en :: es
  end.

Lemma ins_eq es en :
  ins es en = btake (lb es (en_hash en)) es ++ en :: bdrop (lb es (en_hash en)) es.
Proof.
  induction es as [|x es IH]; cbn [lb ins]; auto.
  destruct (en_hash x <? en_hash en) eqn:E; auto.
  unfold btake, bdrop. replace (N.to_nat (1 + lb es (en_hash en)))
    with (Datatypes.S (N.to_nat (lb es (en_hash en)))) by lia.
  simpl. f_equal. exact IH.
Qed.

Lemma ins_perm es en : Permutation (ins es en) (en :: es).
Proof.
  induction es as [|x es IH]; simpl; auto.
  destruct (en_hash x <? en_hash en); auto.
  rewrite IH. apply perm_swap.
Qed.

Lemma ins_sorted es en : ssorted es -> ssorted (ins es en).
Proof.
  induction 1 as [|x es Hs IH Hx]; simpl.
  - repeat constructor.
  - destruct (en_hash x <? en_hash en) eqn:E.
    + constructor; auto. eapply Permutation_Forall; [symmetry; apply ins_perm|].
      constructor; auto. lia.
    + constructor; [constructor; auto|]. constructor; [lia|].
      rewrite Forall_forall in *. intros y Hy. specialize (Hx y Hy). lia.
Qed.

Lemma blen_ins es en : blen (ins es en) = blen es + 1.
Proof.
  unfold blen. rewrite (Permutation_length (ins_perm es en)). simpl. lia.
Qed.

Lemma enc_entries_take es i : i <= blen es -> btake (i * 18) (enc_entries es) = enc_entries (btake i es).
Proof.
  intros Hi. rewrite <- (btake_bdrop i es) at 1. rewrite enc_entries_app.
  apply btake_app_eq. rewrite blen_enc_entries, blen_btake. lia.
Qed.
Lemma enc_entries_drop es i : i <= blen es -> bdrop (i * 18) (enc_entries es) = enc_entries (bdrop i es).
Proof.
  intros Hi. rewrite <- (btake_bdrop i es) at 1. rewrite enc_entries_app.
  apply bdrop_app_eq. rewrite blen_enc_entries, blen_btake. lia.
Qed.

(** Decomposition of the blob of a bucket at entry i. *)
Lemma rep_blob_split bs b es spill i :
  bk_rep bs b es spill -> i <= blen es ->
  exists pad, bk_blob b =
    (wr16 (blen es) ++ wr48 spill) ++ enc_entries (btake i es) ++ enc_entries (bdrop i es) ++ pad.
Proof.
  intros H Hi. destruct (rep_blob _ _ _ _ H) as [pad ->]. exists pad.
  unfold enc_bucket. rewrite <- !app_assoc. do 2 f_equal.
  rewrite app_assoc, <- enc_entries_app, btake_bdrop. auto.
Qed.

Lemma insert_at_rep bs b es spill i en :
  bk_rep bs b es spill -> i <= blen es -> entry_ok en ->
  blen es < bucket_capacity bs -> bs <= 65535 ->
  let blob := bwrite (8 + (i + 1) * 18)
                (bsub (8 + i * 18) ((bk_size b - i) * 18) (bk_blob b)) (bk_blob b) in
  let b1 := bk_update (Bucket (bk_size b + 1) (bk_spill b) blob) in
  bk_rep bs (Bucket (bk_size b1) (bk_spill b1)
              (bwrite (8 + i * 18) (enc_entry en) (bk_blob b1)))
    (btake i es ++ en :: bdrop i es) spill.
Proof.
  intros H Hi Hen Hc Hb blob b1.
  assert (Hfit : bucket_size (blen es + 1) <= bs).
  { destruct (cap_bound bs) as [E|E]; unfold bucket_size in *; lia. }
  destruct (rep_blob_split _ _ _ _ i H Hi) as [pad Hp].
  pose proof (rep_len _ _ _ _ H) as Hl. pose proof Hl as Hl'.
  rewrite Hp, !blen_app, !blen_enc_entries, blen_btake, blen_bdrop, blen_wr16, blen_wr48 in Hl.
  unfold bucket_size in Hfit.
  set (hd := wr16 (blen es) ++ wr48 spill) in *.
  assert (Hhd : blen hd = 8) by reflexivity.
  set (A := enc_entries (btake i es)) in *. set (B := enc_entries (bdrop i es)) in *.
  assert (HA : blen A = i * 18) by (unfold A; rewrite blen_enc_entries, blen_btake; lia).
  assert (HB : blen B = (blen es - i) * 18) by (unfold B; rewrite blen_enc_entries, blen_bdrop; lia).
  (* the moved bytes *)
  assert (Hsub : bsub (8 + i * 18) ((bk_size b - i) * 18) (bk_blob b) = B).
  { rewrite Hp, (rep_size _ _ _ _ H). rewrite (app_assoc hd A). apply bsub_app_eq.
    - rewrite blen_app; lia.
    - lia. }
  assert (Hblob : exists x pad', blen x = 18 /\ blob = hd ++ A ++ x ++ B ++ pad').
  { unfold blob. rewrite Hsub, Hp.
    exists (btake 18 (B ++ pad)), (bdrop (18 + blen B) (B ++ pad)).
    split; [rewrite blen_btake, blen_app; lia|].
    assert (E : hd ++ A ++ B ++ pad =
            (hd ++ A ++ btake 18 (B ++ pad)) ++ btake (blen B) (bdrop 18 (B ++ pad))
              ++ bdrop (18 + blen B) (B ++ pad)).
    { rewrite <- !app_assoc. do 2 f_equal. rewrite <- bdrop_bdrop, btake_bdrop, btake_bdrop. auto. }
    rewrite E. rewrite bwrite_app3.
    - rewrite <- !app_assoc. auto.
    - rewrite !blen_app, blen_btake, blen_app. lia.
    - rewrite blen_btake, blen_bdrop, blen_app. lia. }
  destruct Hblob as (x & pad' & Hx & Hblob).
  assert (Hb1 : bk_blob b1 = (wr16 (blen es + 1) ++ wr48 spill) ++ A ++ x ++ B ++ pad').
  { unfold b1, bk_update; simpl. rewrite Hblob, (rep_size _ _ _ _ H), (rep_spill _ _ _ _ H).
    apply bwrite_0. reflexivity. }
  assert (Hsz : bk_size b1 = bk_size b + 1) by reflexivity.
  assert (Hsp : bk_spill b1 = bk_spill b) by reflexivity.
  assert (Hbl : blen blob = bs).
  { unfold blob. rewrite blen_bwrite; [auto|]. rewrite Hsub, HB. lia. }
  clearbody b1 blob.
  assert (Hfin : bwrite (8 + i * 18) (enc_entry en) (bk_blob b1) =
     enc_bucket (btake i es ++ en :: bdrop i es) spill ++ pad').
  { rewrite Hb1. rewrite (app_assoc _ A). rewrite bwrite_app3.
    - unfold enc_bucket. rewrite enc_entries_app. simpl enc_entries.
      rewrite !blen_app, blen_cons, blen_btake, blen_bdrop.
      replace (N.min i (blen es) + (blen es - i + 1)) with (blen es + 1) by lia.
      rewrite <- !app_assoc. auto.
    - rewrite blen_app. simpl (blen (wr16 _ ++ wr48 _)). rewrite HA. reflexivity.
    - rewrite Hx. reflexivity. }
  constructor; cbn [bk_blob bk_size bk_spill].
  - rewrite Hsz, (rep_size _ _ _ _ H). rewrite !blen_app, blen_cons, blen_btake, blen_bdrop. lia.
  - rewrite Hsp. apply (rep_spill _ _ _ _ H).
  - exists pad'. auto.
  - rewrite blen_bwrite.
    + rewrite Hb1, !blen_app, Hx, HA, HB, blen_wr16, blen_wr48.
      rewrite Hblob, !blen_app, Hx, HA, HB, Hhd in Hbl. lia.
    + rewrite Hb1, !blen_app, Hx, HA, blen_wr16, blen_wr48, blen_enc_entry. lia.
  - apply Forall_app; pose proof (rep_ok _ _ _ _ H) as Ho.
    rewrite <- (btake_bdrop i es) in Ho. apply Forall_app in Ho as [Ho1 Ho2].
    split; auto.
  - apply (rep_spill_lt _ _ _ _ H).
  - rewrite !blen_app, blen_cons, blen_btake, blen_bdrop. lia.
Qed.

Lemma bk_insert_rep bs b es spill off size h :
  bk_rep bs b es spill -> ssorted es -> blen es < bucket_capacity bs -> bs <= 65535 ->
  entry_ok (Entry off size h) ->
  exists b', bk_insert b off size h = Ok b' /\ bk_rep bs b' (ins es (Entry off size h)) spill.
Proof.
  intros H Hs Hc Hb Ho.
  assert (Hfit : bucket_size (blen es + 1) <= bs).
  { destruct (cap_bound bs) as [E|E]; unfold bucket_size in *; lia. }
  unfold bk_insert, bk_bs. rewrite (rep_len _ _ _ _ H), (rep_size _ _ _ _ H).
  unfold bucket_size in Hfit. replace (bs <? 8 + (blen es + 1) * 18) with false by lia.
  destruct Ho as (Ho1 & Ho2 & Ho3); simpl in Ho1, Ho2, Ho3.
  replace ((281474976710655 <? off) || (281474976710655 <? size)) with false by lia.
  cbv zeta. eexists; split; [reflexivity|].
  rewrite (lower_bound_rep _ _ _ _ _ H Hs). rewrite ins_eq. simpl en_hash.
  rewrite <- (rep_size _ _ _ _ H).
  apply (insert_at_rep bs b es spill (lb es h) (Entry off size h)); auto using lb_le.
  repeat split; auto.
Qed.

Lemma erase_rep bs b es spill i :
  bk_rep bs b es spill -> i < blen es ->
  bk_rep bs (bk_erase b i) (btake i es ++ bdrop (i + 1) es) spill.
Proof.
  intros H Hi.
  pose proof (rep_size_le _ _ _ _ H) as Hfit. unfold bucket_size in Hfit.
  destruct (rep_blob_split _ _ _ _ i H ltac:(lia)) as [pad Hp].
  pose proof (rep_len _ _ _ _ H) as Hl. pose proof Hl as Hl'.
  rewrite Hp, !blen_app, !blen_enc_entries, blen_btake, blen_bdrop, blen_wr16, blen_wr48 in Hl.
  set (hd := wr16 (blen es) ++ wr48 spill) in *.
  assert (Hhd : blen hd = 8) by reflexivity.
  assert (Ehd : hd = wr16 (blen es) ++ wr48 spill) by reflexivity. clearbody hd.
  set (A := enc_entries (btake i es)) in *.
  assert (HA : blen A = i * 18) by (unfold A; rewrite blen_enc_entries, blen_btake; lia).
  assert (EB : exists x, blen x = 18 /\ enc_entries (bdrop i es) = x ++ enc_entries (bdrop (i + 1) es)).
  { exists (enc_entries (btake 1 (bdrop i es))). split.
    - rewrite blen_enc_entries, blen_btake, blen_bdrop. lia.
    - rewrite <- enc_entries_app, <- bdrop_bdrop, btake_bdrop. auto. }
  destruct EB as (x & Hx & EB). rewrite EB in Hp.
  set (B := enc_entries (bdrop (i + 1) es)) in *.
  assert (HB : blen B = (blen es - 1 - i) * 18) by (unfold B; rewrite blen_enc_entries, blen_bdrop; lia).
  assert (Hblob1 : exists y, blen y = 18 /\
     (if i <? bk_size b - 1
      then bwrite (8 + i * 18) (bsub (8 + (i + 1) * 18) ((bk_size b - 1 - i) * 18) (bk_blob b)) (bk_blob b)
      else bk_blob b) = hd ++ A ++ B ++ y ++ pad).
  { rewrite (rep_size _ _ _ _ H).
    destruct (N.ltb_spec i (blen es - 1)) as [L|L].
    - assert (Hsub : bsub (8 + (i + 1) * 18) ((blen es - 1 - i) * 18) (bk_blob b) = B).
      { rewrite Hp. rewrite <- app_assoc. rewrite (app_assoc A x), (app_assoc hd (A ++ x)).
        apply bsub_app_eq; [rewrite !blen_app; lia|lia]. }
      rewrite Hsub, Hp. exists (bdrop (blen B) (x ++ B)). split.
      { rewrite blen_bdrop, blen_app. lia. }
      assert (E : hd ++ A ++ (x ++ B) ++ pad =
              (hd ++ A) ++ btake (blen B) (x ++ B) ++ bdrop (blen B) (x ++ B) ++ pad).
      { rewrite <- (btake_bdrop (blen B) (x ++ B)) at 1. rewrite <- !app_assoc. auto. }
      rewrite E. rewrite bwrite_app3.
      + rewrite <- !app_assoc. auto.
      + rewrite blen_app; lia.
      + rewrite blen_btake, blen_app; lia.
    - assert (B = []) by (apply blen_0; lia).
      exists x. split; auto. rewrite Hp, H0. rewrite app_nil_r. auto. }
  destruct Hblob1 as (y & Hy & Hblob1).
  assert (Hfin : bk_blob (bk_erase b i) = enc_bucket (btake i es ++ bdrop (i + 1) es) spill ++ zeros 18 ++ pad).
  { unfold bk_erase. rewrite Hblob1. unfold bk_update; cbn [bk_blob bk_size bk_spill].
    rewrite (rep_size _ _ _ _ H), (rep_spill _ _ _ _ H).
    assert (E : hd ++ A ++ B ++ y ++ pad = (hd ++ A ++ B) ++ y ++ pad) by (rewrite <- !app_assoc; auto).
    rewrite E. rewrite bwrite_app3.
    - rewrite <- !app_assoc. unfold enc_bucket. rewrite enc_entries_app.
      rewrite bwrite_0 by (rewrite Hhd; reflexivity).
      rewrite !blen_app, blen_btake, blen_bdrop.
      replace (N.min i (blen es) + (blen es - (i + 1))) with (blen es - 1) by lia.
      rewrite <- !app_assoc. auto.
    - rewrite !blen_app; lia.
    - rewrite blen_zeros; lia. }
  constructor.
  - unfold bk_erase, bk_update; simpl. rewrite (rep_size _ _ _ _ H), blen_app, blen_btake, blen_bdrop. lia.
  - unfold bk_erase, bk_update; simpl. apply (rep_spill _ _ _ _ H).
  - eauto.
  - rewrite Hfin, !blen_app, blen_enc_bucket, blen_zeros. unfold bucket_size.
    rewrite blen_app, blen_btake, blen_bdrop.
    rewrite Hp, !blen_app, Hx, HA, HB, Hhd in Hl'. lia.
  - pose proof (rep_ok _ _ _ _ H) as Ho.
    rewrite Forall_forall in *. intros z Hz. apply Ho.
    apply in_app_iff in Hz as [Hz|Hz].
    + rewrite <- (btake_bdrop i es). apply in_app_iff; auto.
    + rewrite <- (btake_bdrop (i + 1) es). apply in_app_iff; auto.
  - apply (rep_spill_lt _ _ _ _ H).
  - pose proof (rep_cap _ _ _ _ H). rewrite blen_app, blen_btake, blen_bdrop. lia.
Qed.

Lemma set_spill_rep bs b es spill s' :
  bk_rep bs b es spill -> s' < 281474976710656 -> bk_rep bs (bk_set_spill b s') es s'.
Proof.
  intros H Hs. destruct (rep_blob _ _ _ _ H) as [pad Hp].
  assert (E : bk_blob (bk_set_spill b s') = enc_bucket es s' ++ pad).
  { unfold bk_set_spill, bk_update; simpl. rewrite Hp, (rep_size _ _ _ _ H).
    change (enc_bucket es spill ++ pad) with ((wr16 (blen es) ++ wr48 spill) ++ enc_entries es ++ pad).
    rewrite bwrite_0 by reflexivity. auto. }
  constructor; try apply H; auto; eauto.
  rewrite E. pose proof (rep_len _ _ _ _ H) as Hl. rewrite Hp in Hl.
  rewrite !blen_app, !blen_enc_bucket in *. auto.
Qed.

Lemma compact_rep bs b es spill : bk_rep bs b es spill -> bk_compact b = enc_bucket es spill.
Proof.
  intros H. unfold bk_compact, bk_actual. destruct (rep_blob _ _ _ _ H) as [pad Hp].
  rewrite Hp, (rep_size _ _ _ _ H). apply btake_app_eq. rewrite blen_enc_bucket. auto.
Qed.

Lemma padded_rep bs b es spill : bk_rep bs b es spill -> bk_padded b = enc_block bs es spill.
Proof.
  intros H. unfold bk_padded, bk_actual, bk_bs, enc_block.
  destruct (rep_blob _ _ _ _ H) as [pad Hp]. pose proof (rep_len _ _ _ _ H) as Hl.
  rewrite Hl, (rep_size _ _ _ _ H), Hp.
  rewrite Hp, blen_app, blen_enc_bucket in Hl.
  rewrite <- (app_nil_r pad). rewrite bwrite_app3; rewrite ?app_nil_r; auto.
  - rewrite blen_enc_bucket; auto.
  - rewrite blen_zeros. lia.
Qed.

Lemma blen_enc_block bs es spill : bucket_size (blen es) <= bs -> blen (enc_block bs es spill) = bs.
Proof. intros; unfold enc_block. rewrite blen_app, blen_enc_bucket, blen_zeros. lia. Qed.

Lemma full_rep bs b es spill :
  bk_rep bs b es spill -> bk_full b = (bucket_capacity bs <=? blen es).
Proof. intros H. unfold bk_full, bk_bs. rewrite (rep_len _ _ _ _ H), (rep_size _ _ _ _ H). auto. Qed.

(** Reading a bucket from a file. *)
Lemma bk_read_rep p f off w c es spill pad :
  wget w f = Some c -> off + bucket_size (bucket_capacity (blen p)) <= blen c ->
  bsub off (bucket_size (bucket_capacity (blen p))) c = enc_bucket es spill ++ pad ->
  Forall entry_ok es -> spill < 281474976710656 ->
  blen es <= bucket_capacity (blen p) -> 1 <= bucket_capacity (blen p) -> blen p <= 65535 ->
  exists b, run (bk_read p f off) w = (w, Ok b) /\ bk_rep (blen p) b es spill.
Proof.
  intros Hw Hoff Hsub Ho Hs Hc H1 Hb. unfold bk_read.
  set (bs := blen p) in *.
  assert (Hfit : bucket_size (bucket_capacity bs) <= bs) by (destruct (cap_bound bs); lia).
  assert (Hrep : bk_rep bs (bk_of_blob (bwrite 0 (bsub off (bucket_size (bucket_capacity bs)) c) p)) es spill).
  { eapply bk_of_blob_rep; auto.
    - rewrite Hsub. rewrite bwrite_in by (rewrite <- Hsub, blen_bsub by auto; fold bs; lia).
      rewrite btake_0. simpl app at 1. rewrite <- app_assoc. reflexivity.
    - apply blen_bwrite. rewrite blen_bsub by auto. fold bs; lia. }
  eexists; split; [|exact Hrep].
  rewrite (run_ebind_ok _ _ _ _ _ (run_read _ _ _ _ _ Hw Hoff)).
  rewrite (rep_size _ _ _ _ Hrep). replace (bucket_capacity bs <? blen es) with false by lia.
  reflexivity.
Qed.

Lemma blen_fresh e n : blen (fresh e n) = n.
Proof. unfold fresh. rewrite blen_btake, blen_app, blen_zeros. lia. Qed.
