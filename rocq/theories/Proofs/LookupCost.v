(** What lookups cost. *)
From Verif Require Import Model.Bytes Model.Err Model.Field Model.Format Model.IO
  Model.BulkIO Model.Bucket Model.Pool Model.Recover Model.Create Model.Store Spec SpecFormat SpecDisk SpecVisit SpecFetch
  Model.History
  Proofs.BytesFacts Proofs.FieldFacts Proofs.IOFacts Proofs.PoolFacts Proofs.BucketFacts
  Proofs.BulkFacts Proofs.HashFacts Proofs.Table Proofs.Lookup Proofs.SplitFacts
  Proofs.CommitFacts Proofs.CommitInv Proofs.CommitRun Proofs.HeaderFacts Proofs.StoreInv
  Proofs.OpenFacts Proofs.HistoryFacts Proofs.LifeFacts Proofs.FormatFacts Proofs.DiskFacts Proofs.SafeFacts
  Proofs.EventFacts Proofs.OpsFacts Proofs.WrittenFacts Proofs.VerifyFetchFacts.
Opaque loop.

(** Entries with hash [h]. *)
Definition same (h : N) (es : list entry) : N := blen (filter (fun en => en_hash en =? h) es).
Lemma same_app h a b : same h (a ++ b) = same h a + same h b.
Proof. unfold same. rewrite filter_app, blen_app. reflexivity. Qed.
Lemma same_drop h es i : i < blen es ->
  same h (bdrop i es) = (if en_hash (nthN es i en0) =? h then 1 else 0) + same h (bdrop (i + 1) es).
Proof.
  intros Hi. assert (X : bdrop i es = nthN es i en0 :: bdrop (i + 1) es).
  { unfold bdrop, nthN, blen in *. replace (N.to_nat (i + 1)) with (S (N.to_nat i)) by lia.
    assert (Hn : (N.to_nat i < length es)%nat) by lia. clear Hi. revert Hn. generalize (N.to_nat i).
    induction es as [|x es IH]; intros [|n] Hn; cbn [length skipn nth] in *; try lia; auto. apply IH. lia. }
  rewrite X. unfold same. cbn [filter].
  destruct (en_hash (nthN es i en0) =? h); [rewrite blen_cons|]; lia.
Qed.
Lemma same_drop_le h es i : same h (bdrop i es) <= same h es.
Proof. rewrite <- (btake_bdrop i es) at 2. rewrite same_app. lia. Qed.

Section Lookup.
Variables (e : env) (kh : key_header).
Notation ks := (kh_key_size kh).
Notation bs := (kh_block_size kh).
Hypothesis Hcap : 1 <= bucket_capacity bs.
Hypothesis Hbs : bs <= 65535.
Variables (w : world) (d : bytes) (P : list (N * drec)).
Hypothesis Hw : wget w FDat = Some d.
Hypothesis Hd : holds d P.
Variables (h : N) (k : bytes).

Lemma fetch_scan_cost b es sp fuel : forall i, bk_rep bs b es sp -> fuel = N.to_nat (blen es - i) ->
  nreads (fetch_scan fuel ks h k b i) w <= same h (bdrop i es).
Proof using All.
  induction fuel as [|fuel IH]; intros i Hb Hf; cbn [fetch_scan]; [cbn; lia|]. cbv zeta.
  assert (Hlt : i < blen es) by (clear - Hf; lia).
  rewrite (bk_at_rep _ _ _ _ _ Hb Hlt), (same_drop h es i Hlt).
  destruct (en_hash (nthN es i en0) =? h); cbn [negb]; [|cbn; clear; lia].
  unfold ebind. rewrite nreads_bind, nreads_read.
  apply N.add_le_mono_l. unfold p_read, do_data. cbn [run].
  destruct (exec (IoRead FDat (en_off (nthN es i en0) + 6) (ks + en_size (nthN es i en0))) w) as [w1 r] eqn:E.
  assert (w1 = w) as -> by (pose proof (pure_exec (IoRead FDat (en_off (nthN es i en0) + 6) (ks + en_size (nthN es i en0))) w I) as X; rewrite E in X; exact X).
  destruct r as [er|n x]; cbn [run fst snd nreads]; [clear; lia|].
  destruct (beq (btake ks x) k); [cbn; clear; lia|]. apply IH; [exact Hb|clear - Hf; lia].
Qed.
Lemma exists_scan_cost b es sp fuel : forall i, bk_rep bs b es sp -> fuel = N.to_nat (blen es - i) ->
  nreads (exists_scan fuel ks h k b i) w <= same h (bdrop i es).
Proof using All.
  induction fuel as [|fuel IH]; intros i Hb Hf; cbn [exists_scan]; [cbn; lia|]. cbv zeta.
  assert (Hlt : i < blen es) by (clear - Hf; lia).
  rewrite (bk_at_rep _ _ _ _ _ Hb Hlt), (same_drop h es i Hlt).
  destruct (en_hash (nthN es i en0) =? h); cbn [negb]; [|cbn; clear; lia].
  unfold ebind. rewrite nreads_bind, nreads_read.
  apply N.add_le_mono_l. unfold p_read, do_data. cbn [run].
  destruct (exec (IoRead FDat (en_off (nthN es i en0) + 6) ks) w) as [w1 r] eqn:E.
  assert (w1 = w) as -> by (pose proof (pure_exec (IoRead FDat (en_off (nthN es i en0) + 6) ks) w I) as X; rewrite E in X; exact X).
  destruct r as [er|n x]; cbn [run fst snd nreads]; [clear; lia|].
  destruct (beq x k); [cbn; clear; lia|]. apply IH; [exact Hb|clear - Hf; lia].
Qed.

(** A step of either loop: it ends, or goes on with the next bucket of the chain. *)
Definition walks {R} (step : bucket -> prog (bucket + res R)) : Prop :=
  forall b es sp, bk_rep bs b es sp -> ents_ok es ->
  (exists r, run (step b) w = (w, inr r) /\ nreads (step b) w <= same h es) \/
  (sp <> 0 /\ forall b' es' sp', run (bk_read (fresh e bs) FDat sp) w = (w, Ok b') -> bk_rep bs b' es' sp' ->
     run (step b) w = (w, inl b') /\ nreads (step b) w <= same h es + 1).

Lemma walks_fetch : walks (fetch_step e kh h k).
Proof using All.
  intros b es sp Hb Ho. unfold fetch_step. rewrite (rep_size _ _ _ _ Hb), (lower_bound_rep _ _ _ _ _ Hb (proj1 Ho)).
  pose proof (fetch_scan_cost b es sp _ (lb es h) Hb eq_refl) as C.
  pose proof (same_drop_le h es (lb es h)) as L.
  pose proof (reads_run _ (reads_fetch_scan (N.to_nat (blen es - lb es h)) ks h k b (lb es h)) w) as Rw.
  destruct (run (fetch_scan (N.to_nat (blen es - lb es h)) ks h k b (lb es h)) w) as [w1 x] eqn:E. cbn [fst] in Rw. subst w1.
  rewrite (run_bind_eq _ _ _ _ _ E), (nreads_bind_eq _ _ _ _ _ E).
  destruct x as [[v|]|er].
  - left. eexists. split; [reflexivity|]. cbn [nreads]. clear - C L. lia.
  - rewrite (rep_spill _ _ _ _ Hb). destruct (N.eqb_spec sp 0) as [Z|Z].
    + left. eexists. split; [reflexivity|]. cbn [nreads]. clear - C L. lia.
    + right. split; [exact Z|]. intros b' es' sp' Hr _.
      rewrite (run_bind_eq _ _ _ _ _ Hr), (nreads_bind_eq _ _ _ _ _ Hr), nreads_bk_read. split; [reflexivity|].
      cbn [nreads]. clear - C L. lia.
  - left. eexists. split; [reflexivity|]. cbn [nreads]. clear - C L. lia.
Qed.
Lemma walks_exists : walks (exists_step e kh h k).
Proof using All.
  intros b es sp Hb Ho. unfold exists_step. rewrite (rep_size _ _ _ _ Hb), (lower_bound_rep _ _ _ _ _ Hb (proj1 Ho)).
  pose proof (exists_scan_cost b es sp _ (lb es h) Hb eq_refl) as C.
  pose proof (same_drop_le h es (lb es h)) as L.
  pose proof (reads_run _ (reads_exists_scan (N.to_nat (blen es - lb es h)) ks h k b (lb es h)) w) as Rw.
  destruct (run (exists_scan (N.to_nat (blen es - lb es h)) ks h k b (lb es h)) w) as [w1 x] eqn:E. cbn [fst] in Rw. subst w1.
  rewrite (run_bind_eq _ _ _ _ _ E), (nreads_bind_eq _ _ _ _ _ E).
  destruct x as [[|]|er].
  - left. eexists. split; [reflexivity|]. cbn [nreads]. clear - C L. lia.
  - rewrite (rep_spill _ _ _ _ Hb). destruct (N.eqb_spec sp 0) as [Z|Z].
    + left. eexists. split; [reflexivity|]. cbn [nreads]. clear - C L. lia.
    + right. split; [exact Z|]. intros b' es' sp' Hr _.
      rewrite (run_bind_eq _ _ _ _ _ Hr), (nreads_bind_eq _ _ _ _ _ Hr), nreads_bk_read. split; [reflexivity|].
      cbn [nreads]. clear - C L. lia.
  - left. eexists. split; [reflexivity|]. cbn [nreads]. clear - C L. lia.
Qed.

Lemma walk_cost {R} (step : bucket -> prog (bucket + res R)) : walks step ->
  forall sp ces, chain bs P sp ces -> forall b es, bk_rep bs b es sp -> ents_ok es ->
  exists n r c, N.of_nat n <= sp + 1 /\ cloops step n b w w r c /\
    c <= same h (es ++ ces) + blen ces / bucket_capacity bs.
Proof using All.
  intros Hs. induction 1 as [|sp es2 sp' ces H8 Hsp Hsin Hlen Hok Hlt Hch IH]; intros b es Hb Hes.
  - rewrite app_nil_r. destruct (Hs b es 0 Hb Hes) as [(r & A & B)|[Z _]]; [|congruence].
    exists 1%nat, r, (nreads (step b) w). split; [lia|]. split; [constructor; auto|].
    eapply N.le_trans; [exact B|apply N.le_add_r].
  - destruct (Hs b es sp Hb Hes) as [(r & A & B)|[Z G]].
    { exists 1%nat, r, (nreads (step b) w). split; [lia|]. split; [constructor; auto|].
      rewrite same_app. eapply N.le_trans; [exact B|]. rewrite <- N.add_assoc. apply N.le_add_r. }
    destruct (read_spill bs e d P w sp es2 sp') as (b2 & Hb2 & R2); auto; [clear - Hsp Hlt; lia|].
    destruct (G _ _ _ Hb2 R2) as [A B].
    destruct (IH b2 es2 R2 Hok) as (n & r & c & Hn & L & C).
    exists (Datatypes.S n), r, (nreads (step b) w + c). split; [clear - Hn Hlt; lia|].
    split; [eapply cloops_more; [exact A|reflexivity|exact L]|].
    rewrite same_app, (blen_app es2 ces), Hlen.
    assert (X : (bucket_capacity bs + blen ces) / bucket_capacity bs = 1 + blen ces / bucket_capacity bs).
    { rewrite <- (N.div_add_l 1 (bucket_capacity bs)) by lia. rewrite N.mul_1_l. reflexivity. }
    rewrite X. revert B C. generalize (blen ces / bucket_capacity bs). clear. intros; lia.
Qed.

Lemma walk_loop {R} (step : bucket -> prog (bucket + res R)) b es sp ces : walks step ->
  chain bs P sp ces -> bk_rep bs b es sp -> ents_ok es ->
  nreads (loop step b) w <= same h (es ++ ces) + blen ces / bucket_capacity bs.
Proof using All.
  intros Hs Hch Hb Ho. destruct (walk_cost step Hs sp ces Hch b es Hb Ho) as (n & r & c & Hn & L & C).
  apply chain_lt in Hch. destruct (cloops_loop _ _ _ _ _ _ _ L) as [_ ->]; [clear - Hn Hch; lia|exact C].
Qed.
End Lookup.

(** ** An open store *)
Lemma blen_filter_le {A} (f : A -> bool) l : blen (filter f l) <= blen l.
Proof. induction l as [|x l IH]; cbn [filter]; [lia|]. destruct (f x); rewrite ?blen_cons; lia. Qed.
Lemma blen_filter_and {A} (f g : A -> bool) l : blen (filter f (filter g l)) <= blen (filter f l).
Proof. induction l as [|x l IH]; cbn [filter]; [lia|]. destruct (g x); cbn [filter]; destruct (f x); rewrite ?blen_cons; lia. Qed.
Lemma perm_filter {A} (f : A -> bool) l l' : Permutation l l' -> blen (filter f l) = blen (filter f l').
Proof.
  induction 1; cbn [filter]; auto; try congruence.
  - destruct (f x); rewrite ?blen_cons; congruence.
  - destruct (f x), (f y); rewrite ?blen_cons; reflexivity.
Qed.

Section Store.
Variables (e : env) (p : dbp).
Hypothesis Hp : dbp_ok p.
Variables (recs : list drec) (T : list bent) (s : store) (w : world).
Hypothesis Hi : sinv e p recs T s w.
Notation H := (hash (e_hasher e) (db_salt p)).
Notation bs := (db_block_size p).

(** Stored keys with the hash of [k], and those in its bucket. *)
Definition alike (k : bytes) : N := blen (filter (fun kv => H (fst kv) =? H k) (kvs recs)).
Definition roommates (k : bytes) : N :=
  blen (filter (fun kv => home (st_buckets s) (H (fst kv)) =? home (st_buckets s) (H k)) (kvs recs)).

Lemma count_hash (f : N -> bool) :
  blen (filter (fun en => f (en_hash en)) (dents e p recs)) = blen (filter (fun kv => f (H (fst kv))) (kvs recs)).
Proof using.
  unfold dents. rewrite <- (kvs_datas dat_hdr_size recs). fold (placed recs). generalize (datas (placed recs)).
  induction l as [|[[o k] v] l IH]; [reflexivity|]. cbn [map filter Table.entry_of en_hash fst snd].
  destruct (f (H k)); rewrite ?blen_cons, IH; reflexivity.
Qed.

Lemma bucket_cost {R} (step : bucket -> prog (bucket + res R)) k B :
  let n := bucket_index (H k) (blen T) (ceil_pow2 (blen T)) in
  walks e (db_kh e p B) w (H k) step ->
  exists b, run (bk_read (fresh e bs) FKey ((n + 1) * bs)) w = (w, Ok b) /\
    nreads (loop step b) w <= roommates k / capacity bs + alike k.
Proof using All.
  intros n Hs. pose proof (si_disk _ _ _ _ _ _ Hi) as Hd.
  destruct (disk_pow e p Hp _ _ _ Hd) as (H1 & H2 & Hpo & Ht).
  assert (Hn : n < blen T) by (apply bucket_index_lt; auto).
  destruct (read_key_bucket e (db_kh e p B) (db_thresh p) (p_cap p Hp) (p_bs p Hp) eq_refl (p_thresh p) (db_hdr p) (db_kb e p) T
    (p_hdr p) (p_kb e p Hp) (disk_bent e p _ _ _ Hd B) T w n (dk_key _ _ _ _ _ Hd) (disk_bent e p _ _ _ Hd B) Hn) as (b & Hr & R0).
  destruct (ti_b _ _ _ _ _ Ht n Hn) as [O C _ (ces & Hch & Hperm)].
  exists b. split; [exact Hr|].
  destruct (disk_holds e p _ _ _ Hd) as [Hho _].
  eapply N.le_trans.
  { apply (walk_loop e (db_kh e p B) (p_cap p Hp) (p_bs p Hp) w _ (placed recs) (dk_dat _ _ _ _ _ Hd) Hho (H k) k
      step b (fst (nthN T n b0)) (snd (nthN T n b0)) ces Hs Hch R0 O). }
  cbn [db_kh kh_block_size]. rewrite N.add_comm.
  assert (X1 : same (H k) (fst (nthN T n b0) ++ ces) <= alike k).
  { unfold same. rewrite (perm_filter _ _ _ Hperm).
    etransitivity; [apply blen_filter_and|]. rewrite (count_hash (fun x => x =? H k)). apply N.le_refl. }
  assert (X2 : blen ces <= roommates k).
  { transitivity (blen (fst (nthN T n b0) ++ ces)); [rewrite blen_app; lia|].
    pose proof (f_equal N.of_nat (Permutation_length Hperm)) as X.
    change (blen (fst (nthN T n b0) ++ ces) = blen (filter (mine (blen T) (ceil_pow2 (blen T)) n) (dents e p recs))) in X.
    rewrite X. unfold mine. rewrite (count_hash (fun x => bucket_index x (blen T) (ceil_pow2 (blen T)) =? n)).
    unfold roommates. rewrite (si_buckets _ _ _ _ _ _ Hi).
    assert (HH : forall x, home (blen T) x = bucket_index x (blen T) (ceil_pow2 (blen T)))
      by (intros x; apply home_index; change (2 ^ 63) with 9223372036854775808; lia).
    apply N.eq_le_incl. f_equal. apply filter_ext. intros kv. rewrite !HH. reflexivity. }
  rewrite <- capacity_eq by (apply block_min, p_cap, Hp).
  apply N.add_le_mono; [|exact X1]. apply N.div_le_mono; [|exact X2]. pose proof (p_cap p Hp). lia.
Qed.

Lemma fetch_cost k : nreads (store_fetch e s k) w <= 1 + roommates k / capacity bs + alike k.
Proof using All.
  pose proof (si_disk _ _ _ _ _ _ Hi) as Hd. destruct (disk_holds e p _ _ _ Hd) as [Hho _].
  destruct (si_kh _ _ _ _ _ _ Hi) as (B & Hkh).
  destruct (bucket_cost (fetch_step e (db_kh e p B) (H k) k) k B) as (b & Hr & C).
  { apply (walks_fetch e (db_kh e p B) (p_cap p Hp) (p_bs p Hp) w _ (placed recs) (dk_dat _ _ _ _ _ Hd) Hho). }
  unfold store_fetch. rewrite (si_ec _ _ _ _ _ _ Hi), Hkh. cbv zeta.
  destruct (pool_find (st_p1 s) k) as [x|]; [cbn; lia|].
  rewrite (si_p0 _ _ _ _ _ _ Hi). change (pool_find pool_empty k) with (@None pelem). cbv iota.
  rewrite (si_c1 _ _ _ _ _ _ Hi). cbn [cache_find]. rewrite (si_buckets _ _ _ _ _ _ Hi), (si_modulus _ _ _ _ _ _ Hi).
  cbn [db_kh kh_salt kh_block_size]. rewrite (nreads_ebind_ok _ _ _ _ _ Hr), nreads_bk_read.
  unfold fetch_bucket. rewrite <- N.add_assoc. apply N.add_le_mono_l. exact C.
Qed.
Lemma insert_cost k v : nreads (store_insert e s k v) w <= 1 + roommates k / capacity bs + alike k.
Proof using All.
  pose proof (si_disk _ _ _ _ _ _ Hi) as Hd. destruct (disk_holds e p _ _ _ Hd) as [Hho _].
  destruct (si_kh _ _ _ _ _ _ Hi) as (B & Hkh).
  destruct (bucket_cost (exists_step e (db_kh e p B) (H k) k) k B) as (b & Hr & C).
  { apply (walks_exists e (db_kh e p B) (p_cap p Hp) (p_bs p Hp) w _ (placed recs) (dk_dat _ _ _ _ _ Hd) Hho). }
  unfold store_insert. rewrite (si_ec _ _ _ _ _ _ Hi), Hkh. cbv zeta.
  destruct ((blen v =? 0) || (4294967295 <? blen v)); [cbn; lia|].
  destruct (pool_find (st_p1 s) k) as [x|]; [cbn; lia|].
  rewrite (si_p0 _ _ _ _ _ _ Hi). change (pool_find pool_empty k) with (@None pelem). cbv iota.
  rewrite (si_c1 _ _ _ _ _ _ Hi). cbn [cache_find]. rewrite (si_buckets _ _ _ _ _ _ Hi), (si_modulus _ _ _ _ _ _ Hi).
  cbn [db_kh kh_salt kh_block_size]. unfold ebind at 1. rewrite nreads_bind.
  rewrite (nreads_ebind_ok _ _ _ _ _ Hr), nreads_bk_read.
  match goal with |- _ + nreads ?q ?ww <= _ => assert (Z : nreads q ww = 0) end.
  { destruct (snd _) as [[|]|er]; reflexivity. }
  rewrite Z, N.add_0_r. unfold exists_bucket. rewrite <- N.add_assoc. apply N.add_le_mono_l. exact C.
Qed.
End Store.

Section Lived.
Variables (e : env) (a : create_args) (l : list op) (w : world) (s : store) (key : bytes) (B : N) (k : bytes).
Hypothesis Ha : good_args a.
Hypothesis Hit : iter_ok e.
Hypothesis Hv : Forall (valid_op (ca_key_size a)) l.
Hypothesis Hl : lived e a l w s.
Hypothesis Hk : w_key w = Some key.
Hypothesis HB : blen key = (B + 1) * ca_block_size a.
Notation H := (hash (e_hasher e) (ca_salt a)).
Definition saved_in_home : N :=
  blen (filter (fun kv => home B (H (fst kv)) =? home B (H k)) (written sempty [] [] l)).
Definition saved_alike : N := blen (filter (fun kv => H (fst kv) =? H k) (written sempty [] [] l)).

Lemma lived_cost :
  exists recs T, sinv e (dbp_of a) recs T s w /\ roommates e (dbp_of a) recs s k = saved_in_home /\
    alike e (dbp_of a) recs k = saved_alike.
Proof using All.
  destruct (good_args_ok a Ha) as (Hp & _).
  destruct (lived_written e a l w s Ha Hit Hv Hl) as (recs & T & i & b & Hi & _ & E).
  clear Hl. destruct (disk_structure e _ recs T s w Hp Hi) as (dat & key' & _ & K & L & _).
  exists recs, T. split; [exact Hi|].
  assert (X : st_buckets s = B).
  { assert (key' = key) as -> by congruence. rewrite HB in L. cbn [dbp_of db_block_size] in L.
    assert (ca_block_size a <> 0) by (pose proof (block_min _ (p_cap _ Hp)) as X; cbn [dbp_of db_block_size] in X; unfold key_hdr_size in X; lia).
    apply N.mul_cancel_r in L; [lia|auto]. }
  unfold roommates, alike, saved_in_home, saved_alike. rewrite X, E. split; reflexivity.
Qed.
Lemma lived_fetch_cost :
  nreads (store_fetch e s k) w <= 1 + saved_in_home / capacity (ca_block_size a) + saved_alike.
Proof using All.
  destruct (good_args_ok a Ha) as (Hp & _). destruct lived_cost as (recs & T & Hi & <- & <-).
  exact (fetch_cost e (dbp_of a) Hp recs T s w Hi k).
Qed.
Lemma lived_insert_cost v :
  nreads (store_insert e s k v) w <= 1 + saved_in_home / capacity (ca_block_size a) + saved_alike.
Proof using All.
  destruct (good_args_ok a Ha) as (Hp & _). destruct lived_cost as (recs & T & Hi & <- & <-).
  exact (insert_cost e (dbp_of a) Hp recs T s w Hi k v).
Qed.
End Lived.

Lemma pending_fetch_cost e s k v w :
  st_ec s = None -> pool_find (st_p1 s) k = Some v -> nreads (store_fetch e s k) w = 0.
Proof. intros He Hf. unfold store_fetch. rewrite He, Hf. cbn. reflexivity. Qed.
