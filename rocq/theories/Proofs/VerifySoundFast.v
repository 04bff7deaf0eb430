(** verify_fast succeeds: what it says about arbitrary files. *)
From Verif Require Import Model.Bytes Model.Err Model.Field Model.Format Model.IO
  Model.BulkIO Model.Bucket Model.Pool Model.Recover Model.Create Model.Store Model.History Model.Visit
  Model.Verify Model.Events
  Proofs.BytesFacts Proofs.FieldFacts Proofs.IOFacts Proofs.BucketFacts Proofs.SafeFacts
  Proofs.BulkFacts Proofs.FormatFacts Proofs.VisitFacts Proofs.RecoverFacts Proofs.EventFacts
  Proofs.VerifyFacts Proofs.VerifyWalk Proofs.VerifySound
  Spec SpecFormat SpecHeader SpecVisit SpecVerify.

Opaque loop.

Lemma app_split {A} (a b a' b' : list A) : blen a = blen a' -> a ++ b = a' ++ b' -> a = a' /\ b = b'.
Proof.
  intros Hl He. assert (E : a = a').
  { rewrite <- (btake_app_eq (blen a) a b eq_refl), He. apply btake_app_eq. exact Hl. }
  split; auto. subst a'. apply app_inv_head in He. exact He.
Qed.

Lemma chunk_unique ks (P : chunk -> Prop) : (P = by_size \/ P = by_count) ->
  forall c c' x x', chunk_ok ks c -> chunk_ok ks c' -> P c -> P c' ->
  chunk_image c ++ x = chunk_image c' ++ x' -> c = c' /\ x = x'.
Proof.
  intros HP.
  assert (P6 : forall m (y : bytes), blen m = 8 -> firstn 6 m ++ bdrop 6 m ++ y = m ++ y).
  { intros m y _. change (firstn 6 m) with (btake 6 m). rewrite app_assoc, btake_bdrop. reflexivity. }
  destruct c as [m k v|m s], c' as [m' k' v'|m' s']; cbn [chunk_ok chunk_image].
  - intros x x' (A1 & A2 & A3 & A4) (B1 & B2 & B3 & B4) _ _ He. rewrite <- !app_assoc in He.
    apply app_split in He as [-> He]; [|congruence]. apply app_split in He as [-> He]; [|congruence].
    apply app_split in He as [-> ->]; [|congruence]. auto.
  - intros x x' (A1 & A2 & A3 & A4) (B1 & B4) _ _ He. rewrite <- !app_assoc in He. rewrite <- (P6 m') in He by auto.
    apply app_split in He as [-> He]; [|rewrite A1; change (firstn 6 m') with (btake 6 m'); rewrite blen_btake; lia]. lia.
  - intros x x' (A1 & A4) (B1 & B2 & B3 & B4) _ _ He. rewrite <- !app_assoc in He. rewrite <- (P6 m) in He by auto.
    apply app_split in He as [<- He]; [|rewrite B1; change (firstn 6 m) with (btake 6 m); rewrite blen_btake; lia]. lia.
  - intros x x' (A1 & A4) (B1 & B4) C1 C2 He. rewrite <- !app_assoc in He.
    apply app_split in He as [-> He]; [|congruence].
    assert (L : blen s = blen s').
    { destruct HP; subst P; cbn [by_size by_count] in C1, C2; [congruence|].
      destruct C1 as (C1 & ->), C2 as (C2 & ->). f_equal. f_equal. f_equal.
      change (firstn 2 s) with (btake 2 s). change (firstn 2 s') with (btake 2 s').
      rewrite <- (btake_app_l 2 s x), <- (btake_app_l 2 s' x') by lia. rewrite He. reflexivity. }
    apply app_split in He as [-> ->]; [|exact L]. auto.
Qed.

Lemma image_pos ks c : chunk_ok ks c -> 6 <= blen (chunk_image c).
Proof. destruct c; cbn [chunk_ok chunk_image]; rewrite !blen_app; intuition lia. Qed.

Lemma split_unique ks (P : chunk -> Prop) cs : (P = by_size \/ P = by_count) ->
  forall cs', Forall (chunk_ok ks) cs -> Forall (chunk_ok ks) cs' ->
  Forall P cs -> Forall P cs' -> flat_map chunk_image cs = flat_map chunk_image cs' -> cs = cs'.
Proof.
  intros HP. induction cs as [|c cs IH]; intros [|c' cs'] H1 H2 H3 H4 He; auto; cbn [flat_map] in He.
  - inversion H2; subst. pose proof (image_pos _ _ H5) as X. apply (f_equal blen) in He. rewrite blen_app, blen_nil in He. lia.
  - inversion H1; subst. pose proof (image_pos _ _ H5) as X. apply (f_equal blen) in He. rewrite blen_app, blen_nil in He. lia.
  - inversion H1 as [|? ? X1 X2]; inversion H2 as [|? ? Y1 Y2]; inversion H3 as [|? ? Z1 Z2]; inversion H4 as [|? ? T1 T2]. subst.
    apply (chunk_unique ks P HP) in He as [-> He]; auto. f_equal. auto.
Qed.

Section Fast.
Variables (e : env) (kh : key_header) (d key : bytes) (w : world).
Hypothesis Wd : wget w FDat = Some d.
Hypothesis Wk : wget w FKey = Some key.
Hypothesis Hok : bytes_ok d.
Notation bs := (kh_block_size kh).
Notation ks := (kh_key_size kh).
Notation hof k := (hash (e_hasher e) (kh_salt kh) k).
Notation home k := (bucket_index (hof k) (kh_buckets kh) (kh_modulus kh)).

(** ** Counting the keys *)
Definition rest_of (spill : N) (l : list bucket) : Prop :=
  forall b, bk_spill b = spill -> walk e bs d b (b :: l).

Lemma count_inv n : forall spill nk ns tmp v w1 nk' ns' tmp' v',
  loops (vf_count_step e bs) n (spill, nk, ns, tmp, v) w w1 (Ok (nk', ns', tmp', v')) ->
  w1 = w /\ exists l, rest_of spill l /\ (length l < n)%nat /\ nk' = nk + blen (flat_map ents l) /\
    vi_algorithm v' = vi_algorithm v /\ vi_value_count v' = vi_value_count v /\ vi_key_count v' = vi_key_count v.
Proof using Wd.
  induction n as [|n IH]; intros spill nk ns tmp v w1 nk' ns' tmp' v' Hl; [inversion Hl|].
  destruct (run (vf_count_step e bs (spill, nk, ns, tmp, v)) w) as [w2 x] eqn:E. pose proof E as E0.
  unfold vf_count_step in E. destruct (N.eqb_spec spill 0) as [Z|Z].
  - apply ret_inv in E as [-> ->]. destruct (loops_end _ _ _ _ _ _ _ _ Hl E0) as [-> X]. injection X as -> -> -> ->. split; auto.
    exists []. split; [intros b Hb; constructor; congruence|]. split; [cbn [length]; lia|]. cbn [flat_map]. rewrite blen_nil. split; auto. lia.
  - apply bind_inv in E as (w3 & a & Ha & E).
    pose proof (read_get e bs w FDat d spill Wd) as X. destruct (getb e bs d spill) as [b'|] eqn:Eg.
    + rewrite X in Ha. injection Ha as <- <-. apply ret_inv in E as [-> ->].
      destruct (loops_next _ _ _ _ _ _ _ _ Hl E0) as (m & Em & Hm). injection Em as <-.
      destruct (IH _ _ _ _ _ _ _ _ _ _ Hm) as (-> & l & Hw & Hn & E1 & E2 & E3 & E4). split; auto.
      exists (b' :: l). split; [|split; [cbn [length]; lia|]].
      * intros b Hb. econstructor; [congruence|rewrite Hb; eauto|]. apply Hw. reflexivity.
      * cbn [flat_map]. rewrite blen_app, ents_len. split; [lia|].
        cbn [vi_spill vi_algorithm vi_value_count vi_key_count] in E2, E3, E4. auto.
    + destruct X as (er & X). rewrite X in Ha. injection Ha as <- <-.
      assert (Y : exists er', x = inr (Er er')) by (destruct er; apply ret_inv in E as [-> ->]; eauto).
      destruct Y as (er' & ->). destruct (loops_end _ _ _ _ _ _ _ _ Hl E0) as [_ Y]. discriminate Y.
Qed.

(** The bucket [i] of the buffer. *)
Notation inbuf buf i := (bk_of_blob (bsub (i * bs) bs buf)).

Lemma counts_inv fuel buf : forall i tmp v w1 nk tmp' v',
  run (vf_count e bs fuel buf i tmp v) w = (w1, Ok (nk, tmp', v')) ->
  w1 = w /\ length nk = fuel /\
  (forall j, (j < fuel)%nat -> exists l, walk e bs d (inbuf buf (i + N.of_nat j)) l /\ N.of_nat (length l) <= 2 ^ 64 /\
     nth j nk 0 = blen (flat_map ents l)) /\
  vi_algorithm v' = vi_algorithm v /\ vi_value_count v' = vi_value_count v.
Proof using Wd.
  induction fuel as [|fuel IH]; intros i tmp v w1 nk tmp' v' Hr; cbn [vf_count] in Hr.
  { apply ret_inv in Hr as [-> X]. injection X as -> _ ->. split; auto. split; auto. split; [intros; lia|auto]. }
  cbv zeta in Hr. apply ebind_inv in Hr as (w2 & [[[nk1 ns1] tmp1] v1] & Ha & Hr).
  apply loop_inv in Ha as (n & Hn & Ha). apply count_inv in Ha as (-> & l & L1 & L2 & L3 & L4 & L5 & L6).
  apply ebind_inv in Hr as (w3 & [[nk2 tmp2] v2] & Hb & Hr). apply IH in Hb as (-> & B1 & B2 & B3 & B4).
  apply ret_inv in Hr as [-> X]. injection X as -> _ ->. split; auto. split; [cbn [length]; lia|]. split.
  - intros [|j] Hj; cbn [nth].
    + rewrite N.add_0_r. exists (inbuf buf i :: l). split; [apply L1; reflexivity|].
      change (2 ^ 64) with 18446744073709551616. split; [cbn [length]; lia|].
      cbn [flat_map]. rewrite blen_app, ents_len. exact L3.
    + destruct (B2 j ltac:(lia)) as (l' & W1 & W2 & W3). exists l'.
      replace (i + N.of_nat (Datatypes.S j)) with (i + 1 + N.of_nat j) by lia. auto.
  - cbn [vi_keys vi_bucket vi_algorithm vi_value_count] in B3, B4. split; congruence.
Qed.

(** ** One pass over the data file *)
Section Pass.
Variables (b0 b1 : N) (buf : bytes) (tmp : N).

Definition inpass (j : N) (c : chunk) : bool :=
  match c with CVal _ k _ => home k =? j | CSpill _ _ => false end.
Definition pfound (x : N * chunk) : Prop :=
  match snd x with
  | CVal _ k _ => b0 <= home k < b1 ->
      run (vfind e bs (hof k) (fst x) (inbuf buf (home k - b0))) w = (w, Ok tt)
  | CSpill _ _ => True
  end.

Lemma dec_at_nth l : forall i j, nth j (dec_at i l) 0 = if (j =? i)%nat then nth j l 0 - 1 else nth j l 0.
Proof using.
  induction l as [|x l IH]; intros [|i] [|j]; cbn [dec_at nth Nat.eqb]; auto.
  destruct (j =? i)%nat; reflexivity.
Qed.
Lemma dec_at_length l : forall i, length (dec_at i l) = length l.
Proof using. induction l as [|x l IH]; intros [|i]; cbn [dec_at length]; auto. Qed.

Lemma frecord_inv nk v r off w1 x : at_off d r off -> off <= blen d ->
  run (vf_record e kh b0 b1 buf tmp (nk, v, r)) w = (w1, x) ->
  w1 = w /\
  match x with
  | inr (Ok (nk', v')) => off = blen d /\ nk' = nk /\ v' = v
  | inr (Er _) => True
  | inl (nk', v', r') => exists c, cut kh d off c /\ by_size c /\
      at_off d r' (off + blen (chunk_image c)) /\ pfound (off, c) /\
      length nk' = length nk /\
      (forall j, (j < N.to_nat (b1 - b0))%nat ->
         nth j nk 0 = nth j nk' 0 + if inpass (b0 + N.of_nat j) c then 1 else 0) /\
      vi_algorithm v' = vi_algorithm v
  end.
Proof using Wd Hok.
  intros Hr Hof Hx. unfold vf_record in Hx. rewrite (at_eof _ w Wd _ _ Hr) in Hx.
  destruct (N.leb_spec (blen d) off) as [L|L].
  { apply ret_inv in Hx as [-> ->]. split; auto. split; [lia|auto]. }
  cbv zeta in Hx. assert (Eo : br_offset r = off) by (apply Hr). rewrite Eo in Hx.
  apply bind_inv in Hx as (w2 & a & Ha & Hx). apply (prep d w Wd _ off) in Ha as (-> & [(er & ->)|(r1 & -> & L1 & A1)]); auto.
  { destruct er; apply ret_inv in Hx as [-> ->]; auto. }
  destruct (N.ltb_spec 0 (rd_size48 (bsub off 6 d))) as [P|P].
  - apply bind_inv in Hx as (w2 & a & Ha & Hx). apply (prep d w Wd _ (off + 6)) in Ha as (-> & [(er & ->)|(r2 & -> & L2 & A2)]); auto.
    { destruct er; apply ret_inv in Hx as [-> ->]; auto. }
    rewrite btake_bsub in Hx by lia.
    destruct (cut_val kh d Hok off (rd_size48 (bsub off 6 d)) (bsub off 6 d) L2 eq_refl eq_refl P) as (C1 & C2).
    set (k := bsub (off + 6) ks d) in *.
    destruct ((home k <? b0) || (b1 <=? home k)) eqn:Ein.
    + apply ret_inv in Hx as [-> ->]. split; auto.
      eexists. split; [exact C1|]. split; [exact I|]. rewrite C2. split; [exact A2|].
      assert (Hout : ~ b0 <= home k < b1).
      { intros [Y1 Y2]. apply orb_prop in Ein as [Y|Y]; [apply N.ltb_lt in Y|apply N.leb_le in Y]; lia. }
      split; [intros Y; contradiction|]. split; auto. split; auto.
      intros j Hj. cbn [inpass]. destruct (N.eqb_spec (home k) (b0 + N.of_nat j)) as [Y|Y]; [|lia]. exfalso. lia.
    + apply orb_false_iff in Ein as [I1 I2]. apply N.ltb_ge in I1. apply N.leb_gt in I2.
      apply bind_inv in Hx as (w2 & a & Ha & Hx).
      assert (w2 = w) by (apply (reads_run _ (reads_vfind _ _ _ _ _) _ _ _ Ha)). subst w2.
      destruct a as [[]|er]; [|apply ret_inv in Hx as [-> ->]; auto].
      destruct (N.eqb_spec (nthN nk (home k - b0) 0) 0) as [Z|Z]; apply ret_inv in Hx as [-> ->]; auto. split; auto.
      eexists. split; [exact C1|]. split; [exact I|]. rewrite C2. split; [exact A2|]. split; [intros _; exact Ha|].
      split; [apply dec_at_length|]. split; [|reflexivity].
      intros j Hj. cbn [inpass]. rewrite dec_at_nth. unfold nthN in Z.
      destruct (Nat.eqb_spec j (N.to_nat (home k - b0))) as [Ej|Ej];
        destruct (N.eqb_spec (home k) (b0 + N.of_nat j)) as [Y|Y]; try lia. rewrite <- Ej in Z. lia.
  - assert (Z : rd_size48 (bsub off 6 d) = 0) by lia.
    apply bind_inv in Hx as (w2 & a & Ha & Hx). apply (prep d w Wd _ (off + 6)) in Ha as (-> & [(er & ->)|(r2 & -> & L2 & A2)]); auto.
    { destruct er; apply ret_inv in Hx as [-> ->]; auto. }
    destruct (negb _). { apply ret_inv in Hx as [-> ->]; auto. }
    apply bind_inv in Hx as (w2 & a & Ha & Hx).
    apply (prep d w Wd _ (off + 6 + 2)) in Ha as (-> & [(er & ->)|(r3 & -> & L3 & A3)]); auto.
    { destruct er; apply ret_inv in Hx as [-> ->]; auto. }
    apply ret_inv in Hx as [-> ->]. split; auto.
    destruct (cut_spill kh d Hok off (rd16 (bsub (off + 6) 2 d)) L3 Z) as (C1 & C2).
    eexists. split; [exact C1|]. split.
    { cbn [by_size]. change (skipn 6 ?x) with (bdrop 6 x). change 8 with (6 + 2) at 1. rewrite (bdrop_bsub off 6 2 d).
      rewrite <- rd16_be; [symmetry; apply blen_bsub; lia|apply bytes_ok_bsub; exact Hok|].
      assert (X : blen (bsub (off + 6) 2 d) = 2) by (apply blen_bsub; lia). unfold blen in X. lia. }
    rewrite C2. split; [exact A3|]. split; [exact I|]. split; auto. split.
    + intros j Hj. cbn [inpass]. lia.
    + destruct (b0 =? 0); reflexivity.
Qed.

Lemma frecords_inv n : forall nk v r off w1 nk' v', at_off d r off -> off <= blen d ->
  loops (vf_record e kh b0 b1 buf tmp) n (nk, v, r) w w1 (Ok (nk', v')) ->
  w1 = w /\ exists cs, split_at kh d off cs /\ Forall by_size cs /\ Forall pfound (poss off cs) /\
    length nk' = length nk /\
    (forall j, (j < N.to_nat (b1 - b0))%nat -> nth j nk 0 = nth j nk' 0 + count (inpass (b0 + N.of_nat j)) cs) /\
    vi_algorithm v' = vi_algorithm v.
Proof using Wd Hok.
  induction n as [|n IH]; intros nk v r off w1 nk' v' Hr Hof Hl; [inversion Hl|].
  destruct (run (vf_record e kh b0 b1 buf tmp (nk, v, r)) w) as [w2 x] eqn:E.
  destruct (frecord_inv _ _ _ _ _ _ Hr Hof E) as (-> & X). destruct x as [[[nk2 v2] r2]|rr].
  - destruct X as (c & C & Sz & A & F & E1 & E2 & E3).
    destruct (loops_next _ _ _ _ _ _ _ _ Hl E) as (m & Em & Hm). injection Em as <-.
    destruct (IH _ _ _ _ _ _ _ A (proj1 C) Hm) as (-> & cs & S & Ss & FF & G1 & G2 & G3). split; auto.
    exists (c :: cs). split; [apply split_cons; auto|]. split; [constructor; auto|].
    split; [cbn [poss]; constructor; auto|]. split; [congruence|]. split; [|congruence].
    intros j Hj. cbn [count]. rewrite (E2 j Hj), (G2 j Hj). lia.
  - destruct (loops_end _ _ _ _ _ _ _ _ Hl E) as (-> & <-). destruct X as (X1 & -> & ->). split; auto.
    exists []. split; [apply split_nil; auto|]. split; [constructor|]. split; [constructor|]. split; auto.
    split; auto. intros j Hj. cbn [count]. lia.
Qed.
End Pass.

(** ** All passes *)
Definition ffound (x : N * chunk) : Prop :=
  match snd x with
  | CVal _ k _ =>
      run (vfind e bs (hof k) (fst x) (bk_of_blob (bsub ((home k + 1) * bs) bs key))) w = (w, Ok tt)
  | CSpill _ _ => True
  end.
Definition counted (cs : list chunk) (j : N) : Prop :=
  (j + 1) * bs + bs <= blen key /\
  exists l, walk e bs d (bk_of_blob (bsub ((j + 1) * bs) bs key)) l /\ N.of_nat (length l) <= 2 ^ 64 /\
    count (inpass j) cs = blen (flat_map ents l).
Definition from (b0 : N) (P : N * chunk -> Prop) (x : N * chunk) : Prop :=
  match snd x with CVal _ k _ => b0 <= home k -> P x | CSpill _ _ => True end.

Lemma nth_zero l : forallb (fun x => x =? 0) l = true -> forall j, nth j l 0 = 0.
Proof using.
  intros H j. destruct (nth_in_or_default j l 0) as [Hin|]; auto.
  rewrite forallb_forall in H. apply H in Hin. apply N.eqb_eq. exact Hin.
Qed.

Lemma pass_inv chunk b0 tmp v w1 x : 92 <= blen d -> 0 < bs ->
  run (vf_pass e kh (blen d) chunk (b0, tmp, v)) w = (w1, x) ->
  match x with
  | inr (Ok v') => w1 = w /\ kh_buckets kh <= b0 /\ v' = v
  | inr (Er _) => True
  | inl (b0', tmp', v') => w1 = w /\ b0' = b0 + chunk /\ vi_algorithm v' = vi_algorithm v /\
      exists cs, split_at kh d 92 cs /\ Forall by_size cs /\
        (forall y, In y (poss 92 cs) ->
           match snd y with CVal _ k _ => b0 <= home k < N.min b0' (kh_buckets kh) -> ffound y | CSpill _ _ => True end) /\
        (forall j, b0 <= j < N.min b0' (kh_buckets kh) -> counted cs j)
  end.
Proof using Wd Wk Hok.
  intros Hd Hbs Hx. unfold vf_pass in Hx. cbv zeta in Hx. destruct (N.ltb_spec b0 (kh_buckets kh)) as [L|L].
  2:{ apply ret_inv in Hx as [-> ->]. auto. }
  set (b1 := N.min (b0 + chunk) (kh_buckets kh)) in *.
  apply bind_inv in Hx as (w2 & a & Ha & Hx).
  assert (w2 = w) by (apply (reads_run _ (reads_read _ _ _) _ _ _ Ha)). subst w2.
  destruct a as [buf|er]; [|apply ret_inv in Hx as [-> ->]; auto].
  apply bind_inv in Hx as (w2 & a & Hc & Hx).
  assert (Hbuf : (b1 - b0) * bs <> 0 -> (b0 + 1) * bs + (b1 - b0) * bs <= blen key /\ buf = bsub ((b0 + 1) * bs) ((b1 - b0) * bs) key).
  { intros Nz. destruct (N.leb_spec ((b0 + 1) * bs + (b1 - b0) * bs) (blen key)) as [LL|LL].
    - rewrite (run_read FKey _ _ w key Wk LL) in Ha. injection Ha as <-. auto.
    - rewrite (run_read_short FKey _ _ w key Wk Nz LL) in Ha. discriminate Ha. }
  destruct a as [[[nk tmp1] v1]|er]; [|apply ret_inv in Hx as [-> ->]; auto].
  apply counts_inv in Hc as (-> & N1 & N2 & N3 & N4).
  apply bind_inv in Hx as (w2 & a & Hr & Hx).
  destruct a as [[nk' v2]|er]; [|apply ret_inv in Hx as [-> ->]; auto].
  apply loop_inv in Hr as (n & _ & Hr). apply (frecords_inv _ _ _ _ _ _ _ _ 92) in Hr; [|apply at_start; auto|auto].
  destruct Hr as (-> & cs & S1 & S2 & S3 & S4 & S5 & S6).
  destruct (forallb _ nk') eqn:Ez; apply ret_inv in Hx as [-> ->]; [|exact I].
  pose proof (nth_zero _ Ez) as Z. split; auto. split; auto. split; [congruence|].
  assert (Blk : forall j, b0 <= j < b1 -> (j + 1) * bs + bs <= blen key /\
            bsub ((j - b0) * bs) bs buf = bsub ((j + 1) * bs) bs key).
  { intros j Hj. destruct Hbuf as (B1 & ->); [nia|]. split; [nia|].
    rewrite bsub_bsub by nia. f_equal. nia. }
  exists cs. split; auto. split; auto. split.
  - intros y Hy. rewrite Forall_forall in S3. specialize (S3 y Hy). unfold pfound in S3. unfold ffound.
    destruct (snd y) as [m k x|m x]; [|exact I]. intros Hh. rewrite <- (proj2 (Blk _ Hh)). apply S3. exact Hh.
  - intros j Hj. destruct (Blk j Hj) as (B1 & B2). split; auto.
    destruct (N2 (N.to_nat (j - b0)) ltac:(lia)) as (l & W1 & W2 & W3). exists l.
    replace (0 + N.of_nat (N.to_nat (j - b0))) with (j - b0) in W1 by lia. rewrite B2 in W1. split; auto. split; auto.
    specialize (S5 (N.to_nat (j - b0)) ltac:(lia)). rewrite Z, W3 in S5.
    replace (b0 + N.of_nat (N.to_nat (j - b0))) with j in S5 by lia. lia.
Qed.

Lemma passes_inv chunk n : forall b0 tmp v w1 v', 92 <= blen d -> 0 < bs -> b0 < kh_buckets kh ->
  loops (vf_pass e kh (blen d) chunk) n (b0, tmp, v) w w1 (Ok v') ->
  w1 = w /\ vi_algorithm v' = vi_algorithm v /\ exists cs, split_at kh d 92 cs /\ Forall by_size cs /\
    (forall y, In y (poss 92 cs) ->
       match snd y with CVal _ k _ => b0 <= home k < kh_buckets kh -> ffound y | CSpill _ _ => True end) /\
    (forall j, b0 <= j < kh_buckets kh -> counted cs j).
Proof using Wd Wk Hok.
  induction n as [|n IH]; intros b0 tmp v w1 v' Hd Hbs Hb Hl; [inversion Hl|].
  destruct (run (vf_pass e kh (blen d) chunk (b0, tmp, v)) w) as [w2 x] eqn:E.
  pose proof (pass_inv _ _ _ _ _ _ Hd Hbs E) as X. destruct x as [[[b2 tmp2] v2]|rr].
  - destruct X as (-> & -> & Ea & cs & S1 & S2 & S3 & S4).
    destruct (loops_next _ _ _ _ _ _ _ _ Hl E) as (m & Em & Hm). injection Em as <-.
    destruct (N.ltb_spec (b0 + chunk) (kh_buckets kh)) as [L|L].
    + destruct (IH _ _ _ _ _ Hd Hbs L Hm) as (-> & Ea' & cs' & T1 & T2 & T3 & T4). split; auto. split; [congruence|].
      assert (cs' = cs).
      { destruct S1 as (S1 & S1'), T1 as (T1 & T1'). apply (split_unique ks by_size); auto. congruence. }
      subst cs'. exists cs. split; auto. split; auto. split.
      * intros y Hy. specialize (S3 y Hy). specialize (T3 y Hy). destruct (snd y) as [m k x|m x]; [|exact I]. intros Hh.
        destruct (N.ltb_spec (home k) (b0 + chunk)); [apply S3|apply T3]; lia.
      * intros j Hj. destruct (N.ltb_spec j (b0 + chunk)); [apply S4|apply T4]; lia.
    + assert (Z : exists w3 v3, w3 = w /\ v3 = v2 /\ run (vf_pass e kh (blen d) chunk (b0 + chunk, tmp2, v2)) w = (w3, inr (Ok v3))).
      { exists w, v2. split; auto. split; auto. unfold vf_pass. cbv zeta.
        replace (b0 + chunk <? kh_buckets kh) with false by (symmetry; apply N.ltb_ge; exact L). reflexivity. }
      destruct Z as (w3 & v3 & -> & -> & Z). destruct (loops_end _ _ _ _ _ _ _ _ Hm Z) as (-> & Y). injection Y as ->.
      split; auto. split; auto. exists cs. split; auto. split; auto. split.
      * intros y Hy. specialize (S3 y Hy). destruct (snd y) as [m k x|m x]; [|exact I]. intros Hh. apply S3. lia.
      * intros j Hj. apply S4. lia.
  - destruct (loops_end _ _ _ _ _ _ _ _ Hl E) as (-> & <-). destruct X as (_ & X & _). lia.
Qed.

Lemma fast_inv buffer w1 v : 92 <= blen d -> 0 < bs -> 0 < kh_buckets kh ->
  run (verify_fast e kh (blen d) buffer) w = (w1, Ok v) ->
  w1 = w /\ vi_algorithm v = 1 /\ exists cs, split_at kh d 92 cs /\ Forall by_size cs /\
    (forall y, In y (poss 92 cs) ->
       match snd y with CVal _ k _ => home k < kh_buckets kh -> ffound y | CSpill _ _ => True end) /\
    (forall j, j < kh_buckets kh -> counted cs j).
Proof using Wd Wk Hok.
  intros Hd Hbs Hb Hr. unfold verify_fast in Hr. destruct (_ <? _).
  { apply ret_inv in Hr as [_ X]. discriminate X. }
  cbv zeta in Hr. apply loop_inv in Hr as (n & _ & Hr).
  apply passes_inv in Hr as (-> & Ea & cs & S1 & S2 & S3 & S4); auto. split; auto. split; [exact Ea|].
  exists cs. split; auto. split; auto. split.
  - intros y Hy. specialize (S3 y Hy). destruct (snd y) as [m k x|m x]; [|exact I]. intros Hh. apply S3. lia.
  - intros j Hj. apply S4. lia.
Qed.
End Fast.
