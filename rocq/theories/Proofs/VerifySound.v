(** verify() succeeds: every record of the data file is found in the index. *)
From Verif Require Import Model.Bytes Model.Err Model.Field Model.Format Model.IO
  Model.BulkIO Model.Bucket Model.Pool Model.Recover Model.Create Model.Store Model.History Model.Visit
  Model.Verify Model.Events
  Proofs.BytesFacts Proofs.FieldFacts Proofs.IOFacts Proofs.BucketFacts Proofs.SafeFacts
  Proofs.BulkFacts Proofs.FormatFacts Proofs.VisitFacts Proofs.RecoverFacts Proofs.EventFacts
  Proofs.VerifyFacts Proofs.VerifyWalk
  Spec SpecFormat SpecHeader SpecVisit SpecVerify.

Lemma reads_run {A} (p : prog A) : reads p -> forall w w' a, run p w = (w', a) -> w' = w.
Proof.
  induction 1 as [a|o k Ho Hk IH]; intros w w' x Hr.
  - cbn [run] in Hr. injection Hr; auto.
  - cbn [run] in Hr. destruct (exec o w) as [w1 r] eqn:E. apply IH in Hr.
    pose proof (pure_exec o w Ho) as P. rewrite E in P. cbn [fst] in P. congruence.
Qed.

Lemma reads_vfind e bs h o b : reads (vfind e bs h o b).
Proof.
  apply reads_loop. intros b'. unfold vfind_step. destruct (_ <? _); [apply reads_ret|]. cbv zeta.
  destruct (vfind_scan _ _ _ _ _); [apply reads_ret|]. destruct (_ =? 0); [apply reads_ret|].
  apply reads_bind; [apply reads_bk_read|]. intros [b1|er]; [apply reads_ret|]. destruct er; apply reads_ret.
Qed.

Lemma rd_size48_value m : bytes_ok m -> blen m = 6 -> rd_size48 m = be_value m mod 2 ^ 32.
Proof.
  intros Hm Hl. unfold rd_size48. rewrite rd48_be by (auto; unfold blen in Hl; lia).
  change 4294967295 with (N.ones 32). apply N.land_ones.
Qed.

(** Positions of the records. *)
Fixpoint poss (off : N) (cs : list chunk) : list (N * chunk) :=
  match cs with [] => [] | c :: cs => (off, c) :: poss (off + blen (chunk_image c)) cs end.
Definition is_val (c : chunk) : bool := match c with CVal _ _ _ => true | CSpill _ _ => false end.

Section Sound.
Variables (e : env) (kh : key_header) (d key : bytes) (w : world).
Hypothesis Wd : wget w FDat = Some d.
Hypothesis Wk : wget w FKey = Some key.
Hypothesis Hok : bytes_ok d.
Notation bs := (kh_block_size kh).
Notation ks := (kh_key_size kh).
Notation hof k := (hash (e_hasher e) (kh_salt kh) k).
Notation home k := (bucket_index (hof k) (kh_buckets kh) (kh_modulus kh)).

(** The record at [off] was found. *)
Definition found (x : N * chunk) : Prop :=
  match snd x with
  | CVal _ k _ => exists b, getb e bs key ((home k + 1) * bs) = Some b /\
      run (vfind e bs (hof k) (fst x) b) w = (w, Ok tt)
  | CSpill _ _ => True
  end.

Definition cut (off : N) (c : chunk) : Prop :=
  off + blen (chunk_image c) <= blen d /\ bsub off (blen (chunk_image c)) d = chunk_image c /\ chunk_ok ks c.

Lemma prep r off n w1 a : at_off d r off -> run (br_prepare r n) w = (w1, a) ->
  w1 = w /\ ((exists er, a = Er er) \/
             (exists r', a = Ok (bsub off n d, r') /\ off + n <= blen d /\ at_off d r' (off + n))).
Proof using Wd.
  intros Hr Hp. destruct (N.leb_spec (off + n) (blen d)) as [L|L].
  - destruct (at_prepare d w Wd r off n Hr L) as (r' & R & A). rewrite R in Hp. injection Hp as <- <-. split; [reflexivity|]. right. eauto.
  - rewrite (at_short d w Wd r off n Hr L) in Hp. injection Hp as <- <-. split; [reflexivity|]. left. eauto.
Qed.

Lemma cut_val off size m : off + 6 + (ks + size) <= blen d -> m = bsub off 6 d -> rd_size48 m = size -> 0 < size ->
  let c := CVal m (bsub (off + 6) ks d) (bsub (off + 6 + ks) size d) in
  cut off c /\ off + blen (chunk_image c) = off + 6 + (ks + size).
Proof using Hok.
  intros Hn -> Hs Hp c.
  assert (L1 : blen (bsub off 6 d) = 6) by (apply blen_bsub; lia).
  assert (L2 : blen (bsub (off + 6) ks d) = ks) by (apply blen_bsub; lia).
  assert (L3 : blen (bsub (off + 6 + ks) size d) = size) by (apply blen_bsub; lia).
  assert (LI : blen (chunk_image c) = 6 + (ks + size)) by (unfold c; cbn [chunk_image]; rewrite !blen_app; lia).
  split; [|lia]. split; [lia|]. split.
  - rewrite LI. unfold c. cbn [chunk_image]. rewrite <- bsub_split, <- bsub_split. reflexivity.
  - unfold c. cbn [chunk_ok]. rewrite L1, L2, L3. repeat split; auto.
    rewrite <- Hs, rd_size48_value; auto. apply bytes_ok_bsub. exact Hok.
Qed.

Lemma cut_spill off n : off + 6 + 2 + n <= blen d -> rd_size48 (bsub off 6 d) = 0 ->
  let c := CSpill (bsub off 8 d) (bsub (off + 8) n d) in
  cut off c /\ off + blen (chunk_image c) = off + 6 + 2 + n.
Proof using Hok.
  intros Hn Hs c.
  assert (L1 : blen (bsub off 8 d) = 8) by (apply blen_bsub; lia).
  assert (L3 : blen (bsub (off + 8) n d) = n) by (apply blen_bsub; lia).
  assert (LI : blen (chunk_image c) = 8 + n) by (unfold c; cbn [chunk_image]; rewrite !blen_app; lia).
  split; [|lia]. split; [lia|]. split.
  - rewrite LI. unfold c. cbn [chunk_image]. rewrite <- bsub_split. reflexivity.
  - unfold c. cbn [chunk_ok]. split; auto. change (firstn 6 ?x) with (btake 6 x). rewrite btake_bsub by lia.
    rewrite rd_size48_value in Hs; auto; [apply bytes_ok_bsub; exact Hok|apply blen_bsub; lia].
Qed.

Lemma bind_inv {A B} (p : prog A) (f : A -> prog B) w1 x y :
  run (bind p f) w1 = (x, y) -> exists w2 a, run p w1 = (w2, a) /\ run (f a) w2 = (x, y).
Proof using. rewrite run_bind. destruct (run p w1) as [w2 a]. eauto. Qed.

Lemma ebind_inv {A B} (p : prog (res A)) (f : A -> prog (res B)) w1 x y :
  run (ebind p f) w1 = (x, Ok y) -> exists w2 a, run p w1 = (w2, Ok a) /\ run (f a) w2 = (x, Ok y).
Proof using.
  unfold ebind. rewrite run_bind. destruct (run p w1) as [w2 [a|er]]; [eauto|].
  cbn [run]. intros X. discriminate X.
Qed.

Lemma ret_inv {A} (a : A) w1 x y : run (Ret a) w1 = (x, y) -> x = w1 /\ y = a.
Proof using. cbn [run]. intros X. injection X; auto. Qed.

Lemma record_inv v r off w1 x : at_off d r off -> off <= blen d ->
  run (vn_record e kh (v, r)) w = (w1, x) ->
  w1 = w /\
  match x with
  | inr (Ok v') => off = blen d /\ v' = v
  | inr (Er _) => True
  | inl (v', r') => exists c, cut off c /\ by_count c /\ at_off d r' (off + blen (chunk_image c)) /\ found (off, c) /\
      vi_algorithm v' = vi_algorithm v /\ vi_key_count v' = vi_key_count v /\
      vi_value_count v' = vi_value_count v + (if is_val c then 1 else 0)
  end.
Proof using Wd Wk Hok.
  intros Hr Hof Hx. unfold vn_record in Hx. rewrite (at_eof _ w Wd _ _ Hr) in Hx.
  destruct (N.leb_spec (blen d) off) as [L|L].
  { apply ret_inv in Hx as [-> ->]. split; auto. split; [lia|auto]. }
  cbv zeta in Hx. assert (Eo : br_offset r = off) by (apply Hr). rewrite Eo in Hx.
  apply bind_inv in Hx as (w2 & a & Ha & Hx). apply (prep _ off) in Ha as (-> & [(er & ->)|(r1 & -> & L1 & A1)]); auto.
  { apply ret_inv in Hx as [-> ->]. auto. }
  destruct (N.ltb_spec 0 (rd_size48 (bsub off 6 d))) as [P|P].
  - apply bind_inv in Hx as (w2 & a & Ha & Hx). apply (prep _ (off + 6)) in Ha as (-> & [(er & ->)|(r2 & -> & L2 & A2)]); auto.
    { apply ret_inv in Hx as [-> ->]. auto. }
    rewrite btake_bsub in Hx by lia.
    apply bind_inv in Hx as (w2 & a & Ha & Hx).
    assert (X := read_get e bs w FKey key ((home (bsub (off + 6) ks d) + 1) * bs) Wk).
    destruct (getb e bs key _) as [b|] eqn:Eg.
    2:{ destruct X as (er & X). rewrite X in Ha. injection Ha as <- <-. apply ret_inv in Hx as [-> ->]. auto. }
    rewrite X in Ha. injection Ha as <- <-. clear X.
    apply bind_inv in Hx as (w2 & a & Ha & Hx).
    assert (w2 = w) by (apply (reads_run _ (reads_vfind _ _ _ _ _) _ _ _ Ha)). subst w2.
    destruct a as [[]|er]; apply ret_inv in Hx as [-> ->]; auto. split; auto.
    destruct (cut_val off (rd_size48 (bsub off 6 d)) (bsub off 6 d) L2 eq_refl eq_refl P) as (C1 & C2).
    eexists. split; [exact C1|]. split; [exact I|]. rewrite C2. split; [exact A2|]. split; [exists b; auto|].
    cbn [is_val vi_value vi_algorithm vi_key_count vi_value_count]. auto.
  - assert (Z : rd_size48 (bsub off 6 d) = 0) by lia.
    apply bind_inv in Hx as (w2 & a & Ha & Hx). apply (prep _ (off + 6)) in Ha as (-> & [(er & ->)|(r2 & -> & L2 & A2)]); auto.
    { destruct er; apply ret_inv in Hx as [-> ->]; auto. }
    destruct (negb _). { apply ret_inv in Hx as [-> ->]; auto. }
    apply bind_inv in Hx as (w2 & a & Ha & Hx). unfold bk_read_bulk in Ha.
    apply bind_inv in Ha as (w3 & a1 & Ha1 & Ha). apply (prep _ (off + 6 + 2)) in Ha1 as (-> & [(er & ->)|(r3 & -> & L3 & A3)]); auto.
    { apply ret_inv in Ha as [-> ->]. destruct er; apply ret_inv in Hx as [-> ->]; auto. }
    cbv zeta in Ha. set (n := rd16 (bsub 0 2 _) * 18) in *.
    apply bind_inv in Ha as (w3 & a1 & Ha1 & Ha). apply (prep _ (off + 6 + 2 + 8)) in Ha1 as (-> & [(er & ->)|(r4 & -> & L4 & A4)]); auto.
    { apply ret_inv in Ha as [-> ->]. destruct er; apply ret_inv in Hx as [-> ->]; auto. }
    destruct (_ <? _). { apply ret_inv in Ha as [-> ->]. apply ret_inv in Hx as [-> ->]; auto. }
    apply ret_inv in Ha as [-> ->]. apply ret_inv in Hx as [-> ->]. split; auto.
    destruct (cut_spill off (8 + n)) as (C1 & C2); [lia|auto|].
    eexists. split; [exact C1|]. split.
    { cbn [by_count]. assert (X : blen (bsub (off + 8) (8 + n) d) = 8 + n) by (apply blen_bsub; lia). rewrite X.
      split; [lia|]. change (firstn 2 ?x) with (btake 2 x). rewrite btake_bsub by lia. unfold n.
      rewrite (bsub_bsub (off + 6 + 2) 8 0 2) by lia. replace (off + 6 + 2 + 0) with (off + 8) by lia.
      rewrite rd16_be; [lia|apply bytes_ok_bsub; exact Hok|].
      assert (Y : blen (bsub (off + 8) 2 d) = 2) by (apply blen_bsub; lia). unfold blen in Y. lia. }
    rewrite C2. replace (off + 6 + 2 + (8 + n)) with (off + 6 + 2 + 8 + n) by lia.
    split; [exact A4|]. split; [exact I|].
    cbn [is_val vi_spill_rec vi_algorithm vi_key_count vi_value_count]. rewrite N.add_0_r. auto.
Qed.

(** The whole scan. *)
Definition split_at (off : N) (cs : list chunk) : Prop :=
  bdrop off d = flat_map chunk_image cs /\ Forall (chunk_ok ks) cs.

Lemma split_nil off : off = blen d -> split_at off [].
Proof using. intros ->. split; [rewrite bdrop_all by lia; reflexivity|constructor]. Qed.
Lemma split_cons off c cs : cut off c -> split_at (off + blen (chunk_image c)) cs -> split_at off (c :: cs).
Proof using.
  intros (C1 & C2 & C3) (S1 & S2). split; [|constructor; auto]. cbn [flat_map].
  transitivity (bsub off (blen (chunk_image c)) d ++ bdrop (blen (chunk_image c)) (bdrop off d)).
  - unfold bsub. symmetry. apply btake_bdrop.
  - rewrite C2, bdrop_bdrop, S1. reflexivity.
Qed.

Lemma records_inv n : forall v r off w1 v', at_off d r off -> off <= blen d ->
  loops (vn_record e kh) n (v, r) w w1 (Ok v') ->
  w1 = w /\ exists cs, split_at off cs /\ Forall by_count cs /\ Forall found (poss off cs) /\
    vi_algorithm v' = vi_algorithm v /\ vi_key_count v' = vi_key_count v /\
    vi_value_count v' = vi_value_count v + count is_val cs.
Proof using Wd Wk Hok.
  induction n as [|n IH]; intros v r off w1 v' Hr Hof Hl; [inversion Hl|].
  destruct (run (vn_record e kh (v, r)) w) as [w2 x] eqn:E.
  destruct (record_inv _ _ _ _ _ Hr Hof E) as (-> & X). destruct x as [[v2 r2]|rr].
  - destruct X as (c & C & Bc & A & F & E1 & E2 & E3).
    destruct (loops_next _ _ _ _ _ _ _ _ Hl E) as (m & Em & Hm). injection Em as <-.
    destruct (IH _ _ _ _ _ A (proj1 C) Hm) as (-> & cs & S & Sc & FF & G1 & G2 & G3). split; auto.
    exists (c :: cs). split; [apply split_cons; auto|]. split; [constructor; auto|]. split; [cbn [poss]; constructor; auto|].
    cbn [count]. split; [congruence|]. split; [congruence|]. lia.
  - destruct (loops_end _ _ _ _ _ _ _ _ Hl E) as (-> & <-). destruct X as (X1 & ->). split; auto.
    exists []. split; [apply split_nil; auto|]. split; [constructor|]. split; [constructor|]. cbn [count]. split; auto. split; auto. lia.
Qed.

(** ** The second phase of verify_normal *)
Definition entry_good (en : entry) : Prop :=
  en_off en + 6 + ks <= blen d /\ rd48 (bsub (en_off en) 6 d) = en_size en /\
  hof (bsub (en_off en + 6) ks d) = en_hash en.

Lemma entries_inv fuel : forall b i w1, run (vn_entries e kh fuel b i) w = (w1, Ok tt) ->
  w1 = w /\ forall j, i <= j < i + N.of_nat fuel -> entry_good (bk_at b j).
Proof using Wd.
  induction fuel as [|fuel IH]; intros b i w1 Hr; cbn [vn_entries] in Hr.
  { apply ret_inv in Hr as [-> _]. split; auto. intros j Hj. lia. }
  cbv zeta in Hr. remember (bk_at b i) as en eqn:Een. apply bind_inv in Hr as (w2 & a & Ha & Hr).
  destruct (N.leb_spec (en_off en + (6 + ks)) (blen d)) as [L|L].
  2:{ rewrite (run_read_short FDat _ _ w d Wd) in Ha by lia. injection Ha as <- <-. apply ret_inv in Hr as [_ X]. discriminate X. }
  rewrite (run_read FDat _ _ w d Wd L) in Ha. injection Ha as <- <-.
  rewrite btake_bsub, bdrop_bsub in Hr by lia.
  destruct (N.eqb_spec (rd48 (bsub (en_off en) 6 d)) (en_size en)) as [E1|E1]; cbn [negb] in Hr.
  2:{ apply ret_inv in Hr as [_ X]. discriminate X. }
  destruct (N.eqb_spec (hof (bsub (en_off en + 6) ks d)) (en_hash en)) as [E2|E2]; cbn [negb] in Hr.
  2:{ apply ret_inv in Hr as [_ X]. discriminate X. }
  apply IH in Hr as (-> & H). split; auto. intros j Hj.
  destruct (N.eq_dec j i) as [->|Hn]; [|apply H; lia]. rewrite <- Een. split; [lia|]. auto.
Qed.

Lemma ents_in b en : In en (ents b) -> exists j, j < bk_size b /\ en = bk_at b j.
Proof using.
  unfold ents. intros H. apply in_map_iff in H as (i & <- & Hi). apply in_seq in Hi.
  exists (N.of_nat i). split; [clear - Hi; lia|reflexivity].
Qed.

Lemma chain_inv n : forall b ns v w1 ns' v',
  loops (vn_chain_step e kh) n (b, ns, v) w w1 (Ok (ns', v')) ->
  w1 = w /\ exists l, walk e bs d b l /\ (length l <= n)%nat /\ Forall entry_good (flat_map ents l) /\
    vi_algorithm v' = vi_algorithm v /\ vi_value_count v' = vi_value_count v /\
    vi_key_count v' = vi_key_count v + blen (flat_map ents l).
Proof using Wd.
  induction n as [|n IH]; intros b ns v w1 ns' v' Hl; [inversion Hl|].
  destruct (run (vn_chain_step e kh (b, ns, v)) w) as [w2 x] eqn:E. pose proof E as E0.
  unfold vn_chain_step in E. cbv zeta in E. apply bind_inv in E as (w3 & a & Ha & E).
  destruct a as [[]|er].
  2:{ apply ret_inv in E as [-> ->]. destruct (loops_end _ _ _ _ _ _ _ _ Hl E0) as [_ X]. discriminate X. }
  apply entries_inv in Ha as (-> & Hen).
  assert (G : Forall entry_good (ents b)).
  { apply Forall_forall. intros en Hin. apply ents_in in Hin as (j & Hj & ->). apply Hen. lia. }
  destruct (N.eqb_spec (bk_spill b) 0) as [Z|Z].
  - apply ret_inv in E as [-> ->]. destruct (loops_end _ _ _ _ _ _ _ _ Hl E0) as [-> X]. injection X as -> ->. split; auto.
    exists [b]. split; [constructor; auto|]. split; [cbn [length]; lia|]. cbn [flat_map]. rewrite app_nil_r. split; auto.
    cbn [vi_keys vi_algorithm vi_value_count vi_key_count]. rewrite ents_len. auto.
  - apply bind_inv in E as (w3 & a & Ha & E).
    pose proof (read_get e bs w FDat d (bk_spill b) Wd) as X. destruct (getb e bs d (bk_spill b)) as [b'|] eqn:Eg.
    + rewrite X in Ha. injection Ha as <- <-. apply ret_inv in E as [-> ->].
      destruct (loops_next _ _ _ _ _ _ _ _ Hl E0) as (m & Em & Hm). injection Em as <-.
      destruct (IH _ _ _ _ _ _ Hm) as (-> & l & Hw & Hn & Hg & E1 & E2 & E3). split; auto.
      exists (b :: l). split; [econstructor; eauto|]. split; [cbn [length]; lia|]. cbn [flat_map].
      split; [apply Forall_app; auto|]. rewrite blen_app, ents_len.
      cbn [vi_keys vi_spill vi_algorithm vi_value_count vi_key_count] in E1, E2, E3. split; auto. split; auto. lia.
    + destruct X as (er & X). rewrite X in Ha. injection Ha as <- <-. apply ret_inv in E as [-> ->].
      destruct (loops_end _ _ _ _ _ _ _ _ Hl E0) as [_ Y]. discriminate Y.
Qed.

(** The buckets from [i] on have the chains [ls]. *)
Definition bucket_chain (j : N) (l : list bucket) : Prop :=
  exists b, getb e bs key ((j + 1) * bs) = Some b /\ walk e bs d b l /\ (N.of_nat (length l) <= 2 ^ 64).

Lemma buckets_inv n : forall i v w1 v', i <= kh_buckets kh ->
  loops (vn_bucket_step e kh) n (i, v) w w1 (Ok v') ->
  w1 = w /\ exists ls, N.of_nat (length ls) = kh_buckets kh - i /\
    (forall j, (j < length ls)%nat -> bucket_chain (i + N.of_nat j) (nth j ls []) /\
                              Forall entry_good (flat_map ents (nth j ls []))) /\
    vi_algorithm v' = vi_algorithm v /\ vi_value_count v' = vi_value_count v /\
    vi_key_count v' = vi_key_count v + total (map (fun l => blen (flat_map ents l)) ls).
Proof using Wd Wk.
  induction n as [|n IH]; intros i v w1 v' Hi Hl; [inversion Hl|].
  destruct (run (vn_bucket_step e kh (i, v)) w) as [w2 x] eqn:E. pose proof E as E0.
  unfold vn_bucket_step in E. destruct (N.ltb_spec i (kh_buckets kh)) as [L|L].
  - apply bind_inv in E as (w3 & a & Ha & E).
    pose proof (read_get e bs w FKey key ((i + 1) * bs) Wk) as X. destruct (getb e bs key ((i + 1) * bs)) as [b|] eqn:Eg.
    2:{ destruct X as (er & X). rewrite X in Ha. injection Ha as <- <-. apply ret_inv in E as [-> ->].
        destruct (loops_end _ _ _ _ _ _ _ _ Hl E0) as [_ Y]. discriminate Y. }
    rewrite X in Ha. injection Ha as <- <-. apply bind_inv in E as (w3 & a & Ha & E). destruct a as [[ns v1]|er].
    2:{ apply ret_inv in E as [-> ->]. destruct (loops_end _ _ _ _ _ _ _ _ Hl E0) as [_ Y]. discriminate Y. }
    apply loop_inv in Ha as (m & Hm & Hc). apply chain_inv in Hc as (-> & l & C1 & C2 & C3 & C4 & C5 & C6).
    apply ret_inv in E as [-> ->].
    destruct (loops_next _ _ _ _ _ _ _ _ Hl E0) as (m' & Em & Hm'). injection Em as <-.
    destruct (IH (i + 1) _ _ _ ltac:(lia) Hm') as (-> & ls & L1 & L2 & L3 & L4 & L5). split; auto.
    exists (l :: ls). split; [cbn [length]; lia|]. split.
    + intros [|j] Hj; cbn [nth length] in *.
      * rewrite N.add_0_r. split; auto. exists b. split; auto. split; auto. change (2 ^ 64) with 18446744073709551616. lia.
      * replace (i + N.of_nat (Datatypes.S j)) with (i + 1 + N.of_nat j) by lia. apply L2. lia.
    + cbn [map total]. cbn [vi_bucket vi_algorithm vi_value_count vi_key_count] in L3, L4, L5.
      split; [congruence|]. split; [congruence|]. lia.
  - apply ret_inv in E as [-> ->]. destruct (loops_end _ _ _ _ _ _ _ _ Hl E0) as [-> X]. injection X as ->. split; auto.
    exists []. split; [cbn [length]; lia|]. split; [cbn [length]; intros; lia|]. cbn [map total]. split; auto. split; auto. lia.
Qed.

Lemma at_start n : 92 <= blen d -> at_off d (br_make FDat dat_hdr_size (blen d) n) 92.
Proof using.
  intros H. split; [apply br_make_inv; [exact H|lia]|]. split; [reflexivity|]. split; [reflexivity|].
  apply br_make_offset.
Qed.

Lemma normal_eq n : verify_normal e kh n =
  ebind (loop (vn_record e kh) (vinfo0 0, br_make FDat dat_hdr_size n (1024 * bs)))
    (fun v => loop (vn_bucket_step e kh) (0, v)).
Proof using. reflexivity. Qed.

Lemma normal_inv w1 v : 92 <= blen d -> run (verify_normal e kh (blen d)) w = (w1, Ok v) ->
  w1 = w /\ vi_algorithm v = 0 /\
  exists cs ls, split_at 92 cs /\ Forall by_count cs /\ Forall found (poss 92 cs) /\ N.of_nat (length ls) = kh_buckets kh /\
    (forall j, (j < length ls)%nat -> bucket_chain (N.of_nat j) (nth j ls []) /\
                              Forall entry_good (flat_map ents (nth j ls []))) /\
    vi_value_count v = count is_val cs /\
    vi_key_count v = total (map (fun l => blen (flat_map ents l)) ls).
Proof using Wd Wk Hok.
  intros Hd Hr. rewrite normal_eq in Hr. apply ebind_inv in Hr as (w2 & v1 & Ha & Hr).
  apply loop_inv in Ha as (n & _ & Ha). apply (records_inv _ _ _ 92) in Ha; [|apply at_start; auto|auto].
  destruct Ha as (-> & cs & S1 & Sc & S2 & S3 & S4 & S5).
  apply loop_inv in Hr as (m & _ & Hr). apply buckets_inv in Hr as (-> & ls & L1 & L2 & L3 & L4 & L5); [|lia].
  cbn [vinfo0 vi_algorithm vi_key_count vi_value_count] in *. split; auto. split; [congruence|].
  exists cs, ls. split; auto. split; auto. split; auto. split; [lia|]. split; [exact L2|]. split; lia.
Qed.
End Sound.
