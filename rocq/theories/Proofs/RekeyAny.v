(** rekey() of arbitrary data files. *)
From Verif Require Import Model.Bytes Model.Err Model.Field Model.Format Model.IO Model.BulkIO
  Model.Bucket Model.Pool Model.Recover Model.Create Model.Store Model.History Model.Visit Model.Crash Model.Events
  Model.Rekey Model.RekeyLife Model.BucketMem
  Spec SpecFormat SpecHeader SpecVisit SpecVisitAny Proofs.BytesFacts Proofs.FieldFacts Proofs.FormatFacts Proofs.IOFacts
  Proofs.BulkFacts Proofs.PoolFacts Proofs.BucketFacts Proofs.HashFacts Proofs.Table Proofs.Lookup Proofs.SplitFacts
  Proofs.CommitFacts Proofs.CommitInv Proofs.CommitRun Proofs.RefuseFacts Proofs.VisitFacts Proofs.VisitAny Proofs.MemFacts
  Proofs.RekeyFacts Proofs.RekeyRun Proofs.RekeyHist.
Opaque loop.

Lemma bsub_written o (y x : bytes) : o + blen y <= blen x -> bsub o (blen y) (bwrite o y x) = y.
Proof.
  intros H. rewrite bwrite_in by lia. apply bsub_app_eq; [rewrite blen_btake; lia|reflexivity].
Qed.
Lemma bsub_unwritten off len o y (x : bytes) : off + len <= blen x -> o + blen y <= blen x ->
  (off + len <= o \/ o + blen y <= off) -> bsub off len (bwrite o y x) = bsub off len x.
Proof.
  intros Hl Hy Ho. rewrite bwrite_in by lia. destruct Ho as [Ho|Ho].
  - rewrite bsub_app_l by (rewrite blen_btake; lia). apply bsub_btake. lia.
  - rewrite app_assoc, bsub_app_r by (rewrite blen_app, blen_btake; lia).
    rewrite blen_app, blen_btake, N.min_l by lia. unfold bsub. rewrite bdrop_bdrop. do 2 f_equal. lia.
Qed.

Section Any.
Variables (e : env) (kh : key_header) (d : bytes).
Notation bs := (kh_block_size kh).
Notation ks := (kh_key_size kh).
Hypothesis Hcap : 1 <= bucket_capacity bs.
Hypothesis Hbs : bs <= 65535.
Notation D := (blen d).

(** The files while rekey() works. *)
Definition files_ok (w : world) : Prop :=
  (exists x, wget w FDat = Some (d ++ x)) /\ (exists K, wget w FKey = Some K) /\ exists L, wget w FLog = Some L.
Definition writer_ok (w : world) (dw : bwriter) : Prop :=
  files_ok w /\ (exists c, bw_inv FDat w dw c) /\ bw_small datbuf dw.
Definition buf_fit (bn : N) (buf : bytes) : Prop :=
  blen buf = bn * bs /\ forall i, i < bn -> pfit bs (bsub (i * bs) bs buf).
Definition failed (w : world) (er : err) : Prop :=
  files_ok w /\ (er = short_read \/ er = EAssert /\ near_limit w).

Lemma files_set w x : files_ok w -> files_ok (wset w FDat (Some (d ++ x))).
Proof using. clear Hcap Hbs.
  intros (_ & K & L). split; [exists x; apply wget_wset_same|]. rewrite !wget_wset_other by discriminate. auto.
Qed.

Lemma spill_any b dw w : bfit bs b -> writer_ok w dw ->
  exists w' r, run (maybe_spill b dw) w = (w', r) /\
    match r with
    | Ok (b', dw') => bfit bs b' /\ bk_size b' < bucket_capacity bs /\ writer_ok w' dw'
    | Er er => failed w' er
    end.
Proof using e Hcap Hbs.
  intros Hb (Hf & (c & Hi) & Hz). destruct (run (maybe_spill b dw) w) as [w' r] eqn:R. exists w', r. split; [reflexivity|].
  pose proof Hf as ((x & Hx) & HK & HL). destruct (maybe_spill_grows b dw w w' r c (d ++ x) Hi Hx R) as (y & Hy).
  unfold maybe_spill in R. destruct (bk_full b) eqn:F.
  - cbv zeta in R. set (rec := wr48 0 ++ wr16 (bk_actual b) ++ bk_compact b) in *.
    destruct (run_bw_put FDat w dw c rec Hi) as (z & dw1 & Rp & Hi1 & Ho).
    assert (Hr : datbuf (blen rec)).
    { unfold datbuf, rec. rewrite !blen_app, blen_wr48, blen_wr16. unfold bk_compact. rewrite blen_btake.
      destruct Hb as (E & _). unfold bk_bs in E. lia. }
    pose proof (bw_put_small datbuf FDat w dw c rec _ _ datbuf_ok Hi Hz Hr Rp) as Hz1.
    rewrite (run_ebind_ok _ _ _ _ _ Rp) in R.
    assert (Hf1 : files_ok (wset w FDat (Some z))).
    { assert (w' = wset w FDat (Some z)) by (destruct (_ <? _); cbn [run pret pfail] in R; congruence). subst w'.
      rewrite wget_wset_same in Hy. assert (z = (d ++ x) ++ y) by congruence. subst z. rewrite <- app_assoc.
      apply files_set. exact Hf. }
    rewrite (bw_offset_inv _ _ _ _ Hi) in R.
    destruct (N.ltb_spec 281474976710655 (blen c + 8)) as [L|L]; cbn [run pret pfail] in R.
    + assert (E1 : wset w FDat (Some z) = w') by congruence. assert (E2 : r = Er EAssert) by congruence. subst w' r.
      split; [exact Hf1|]. right. split; auto. destruct Hi1 as [_ _ (d1 & Hd1 & _ & Hc)]. exists d1. split; [exact Hd1|].
      destruct Hz1 as [Hz1 _]. unfold datbuf in Hz1. apply (f_equal (@blen N)) in Hc. rewrite !blen_app in Hc.
      change (2 ^ 48 - 2 ^ 33) with 281466386776064. lia.
    + assert (E1 : wset w FDat (Some z) = w') by congruence.
      assert (E2 : r = Ok (bk_set_spill (bk_empty (bk_bs b)) (blen c + 8), dw1)) by congruence. subst w' r.
      pose proof Hb as (E & _). rewrite E.
      split; [apply (set_spill_ok e bs Hcap Hbs); apply (empty_fit e bs Hcap Hbs)|]. split; [cbn; lia|].
      split; [exact Hf1|]. split; [eauto|exact Hz1].
  - cbn [run pret] in R. assert (w' = w) by congruence. assert (r = Ok (b, dw)) by congruence. subst w' r.
    split; [exact Hb|]. split; [apply (full_false e bs Hcap Hbs); auto|]. split; [exact Hf|]. split; eauto.
Qed.

Lemma insert_any b off size h w : bfit bs b -> bk_size b < bucket_capacity bs -> size < 4294967296 -> off <= D -> files_ok w ->
  match bk_insert b off size h with Ok b' => bfit bs b' | Er er => failed w er end.
Proof using e Hcap Hbs.
  intros Hb Hs Hz Ho Hf. destruct (insert_ok e bs Hcap Hbs b off size h Hb Hs) as [_ X].
  destruct (bk_insert b off size h) as [b'|er] eqn:E; [apply X|]. split; [exact Hf|]. right.
  unfold bk_insert in E. destruct (_ <? _) in E; [congruence|].
  destruct (N.ltb_spec 281474976710655 off) as [L|L]; [|destruct (N.ltb_spec 281474976710655 size); [lia|discriminate E]].
  cbn [orb] in E. assert (EAssert = er) by congruence. split; auto.
  destruct Hf as ((x & Hx) & _). exists (d ++ x). split; [exact Hx|]. rewrite blen_app.
  change (2 ^ 48 - 2 ^ 33) with 281466386776064. lia.
Qed.

(** A reader of the original contents. *)
Definition reads_at (r : breader) (off : N) : Prop :=
  br_inv d r /\ br_file r = FDat /\ br_last r = D /\ br_offset r = off.

Lemma reads_prepare r off n w : reads_at r off -> files_ok w -> off + n <= D ->
  exists r', run (br_prepare r n) w = (w, Ok (bsub off n d, r')) /\ reads_at r' (off + n).
Proof using. clear Hcap Hbs.
  intros (Hi & Hf & Hl & Ho) ((x & Hw) & _) Hn.
  assert (Hi2 : br_inv (d ++ x) r).
  { destruct Hi as [A B C F]. constructor; auto.
    - rewrite blen_app. lia.
    - rewrite bsub_app_l by lia. exact F. }
  destruct (run_br_prepare (d ++ x) r w n Hi2) as (r' & Hr & Hi' & Ho' & Hf' & Hl').
  - rewrite Hf. exact Hw.
  - lia.
  - exists r'. rewrite Hr, Ho. rewrite bsub_app_l by lia. split; [reflexivity|].
    unfold reads_at. rewrite Hf', Hl', Ho', Hf, Hl, Ho. split; [|auto].
    destruct Hi' as [A B C F]. rewrite Hl', Hl in *. constructor; auto.
    + rewrite Hl'. lia.
    + rewrite Hl'. lia.
    + rewrite bsub_app_l in F by lia. exact F.
Qed.
Lemma reads_short r off n w : reads_at r off -> D < off + n -> run (br_prepare r n) w = (w, Er short_read).
Proof using. clear Hcap Hbs. intros (Hi & Hf & Hl & Ho) Hn. apply (run_br_prepare_short d); auto. lia. Qed.
Lemma reads_eof r off : reads_at r off -> br_eof r = (D <=? off).
Proof using. clear Hcap Hbs. intros (_ & _ & Hl & Ho). unfold br_eof. rewrite Hl, Ho. reflexivity. Qed.

(** The end of the record at [off]. *)
Definition frame (off : N) : option N :=
  if D <? off + 6 then None
  else
    let s := rd_size48 (bsub off 6 d) in
    if 0 <? s then if D <? off + 6 + (ks + s) then None else Some (off + 6 + (ks + s))
    else if D <? off + 6 + 2 then None
    else let o := off + 6 + 2 + rd16 (bsub (off + 6) 2 d) in if D <? o then None else Some o.

Lemma frame_bounds off o : frame off = Some o -> off + 6 <= o <= D.
Proof using. clear Hcap Hbs.
  unfold frame. destruct (N.ltb_spec D (off + 6)); [discriminate|]. cbv zeta.
  destruct (0 <? _).
  - destruct (N.ltb_spec D (off + 6 + (ks + rd_size48 (bsub off 6 d)))); [discriminate|]. intros [= <-]. lia.
  - destruct (N.ltb_spec D (off + 6 + 2)); [discriminate|].
    destruct (N.ltb_spec D (off + 6 + 2 + rd16 (bsub (off + 6) 2 d))); [discriminate|]. intros [= <-]. lia.
Qed.

Variables (b0 bn work total : N).
Notation step := (rekey_step e kh b0 bn work total).

Lemma step_any t buf dw r w off : writer_ok w dw -> buf_fit bn buf -> reads_at r off -> off < D ->
  exists w1 x, run (step (t, buf, dw, r)) w = (w1, x) /\
    match frame off with
    | None => w1 = w /\ x = inr (Er short_read)
    | Some o =>
      (exists er, x = inr (Er er) /\ failed w1 er) \/
      exists t1 buf1 dw1 r1, x = inl (t1, buf1, dw1, r1) /\ writer_ok w1 dw1 /\ buf_fit bn buf1 /\ reads_at r1 o
    end.
Proof using e Hcap Hbs.
  intros Hw Hb Hr Ho. pose proof Hw as (Hf & _). unfold rekey_step. rewrite (reads_eof _ _ Hr).
  replace (D <=? off) with false by lia. pose proof Hr as (_ & _ & _ & O0). rewrite O0. cbv zeta. unfold frame.
  destruct (N.ltb_spec D (off + 6)) as [L|L].
  { exists w, (inr (Er short_read)). split; auto. rewrite run_bind, (reads_short r off 6 w Hr) by lia. reflexivity. }
  destruct (reads_prepare r off 6 w Hr Hf L) as (r1 & R1 & A1).
  rewrite run_bind, R1. cbv beta iota zeta. set (s := rd_size48 (bsub off 6 d)).
  assert (Hs : s < 4294967296).
  { unfold s, rd_size48. change 4294967295 with (N.ones 32). rewrite N.land_ones.
    change (2 ^ 32) with 4294967296. apply N.mod_lt. discriminate. }
  clearbody s. destruct (0 <? s).
  - destruct (N.ltb_spec D (off + 6 + (ks + s))) as [L2|L2].
    { exists w, (inr (Er short_read)). split; auto. rewrite run_bind, (reads_short r1 _ _ w A1) by lia. reflexivity. }
    destruct (reads_prepare r1 (off + 6) (ks + s) w A1 Hf L2) as (r2 & R2 & A2).
    rewrite run_bind, R2. cbv beta iota zeta. set (h := hash _ _ _). clearbody h.
    set (n := bucket_index h (kh_buckets kh) (kh_modulus kh)). clearbody n.
    destruct ((n <? b0) || (b0 + bn <=? n)) eqn:En.
    { eexists _, _. split; [reflexivity|]. right. eexists _, _, _, _. split; [reflexivity|]. auto. }
    apply orb_false_elim in En as [E1 E2]. apply N.ltb_ge in E1. apply N.leb_gt in E2.
    set (i := n - b0). assert (Hi : i < bn) by (unfold i; lia).
    destruct Hb as [Lb Hb].
    destruct (spill_any (bk_of_blob (bsub (i * bs) bs buf)) dw w (pfit_bucket e bs Hcap Hbs _ (Hb i Hi)) Hw)
      as (w1 & rs & Rs & Hrs).
    destruct rs as [[b dw1]|er].
    2: { exists w1, (inr (Er er)). split; [|left; eauto].
      rewrite run_bind, (run_ebind_er _ _ _ _ _ Rs). reflexivity. }
    destruct Hrs as (Hb1 & Hs1 & Hw1). pose proof (insert_any b off s h w1 Hb1 Hs1 Hs (N.lt_le_incl _ _ Ho) (proj1 Hw1)) as HI.
    destruct (bk_insert b off s h) as [b2|er] eqn:EI.
    2: { exists w1, (inr (Er er)). split; [|left; eauto].
      rewrite run_bind, (run_ebind_ok _ _ _ _ _ Rs). cbv beta iota. rewrite EI. reflexivity. }
    exists w1. eexists. split.
    { rewrite run_bind, (run_ebind_ok _ _ _ _ _ Rs). cbv beta iota. rewrite EI. reflexivity. }
    right. eexists _, _, _, _. split; [reflexivity|]. split; [exact Hw1|]. split; [|exact A2].
    pose proof (bfit_blob e bs Hcap Hbs b2 HI) as Hp2. pose proof Hp2 as [Lp _].
    assert (Hin : i * bs + blen (bk_blob b2) <= blen buf) by (rewrite Lb, Lp; nia).
    split; [rewrite blen_bwrite; auto|]. intros j Hj. destruct (N.eq_dec j i) as [->|Hne].
    + pose proof (bsub_written (i * bs) _ buf Hin) as X. rewrite Lp in X. rewrite X. exact Hp2.
    + rewrite bsub_unwritten; [apply Hb; exact Hj|rewrite Lb; nia|exact Hin|]. rewrite Lp.
      destruct (N.lt_ge_cases j i); [left|right]; nia.
  - destruct (N.ltb_spec D (off + 6 + 2)) as [L2|L2].
    { exists w, (inr (Er short_read)). split; auto. rewrite run_bind, (reads_short r1 _ _ w A1) by lia. reflexivity. }
    destruct (reads_prepare r1 (off + 6) 2 w A1 Hf L2) as (r2 & R2 & A2).
    rewrite run_bind, R2. cbv beta iota zeta. set (q := rd16 (bsub (off + 6) 2 d)). clearbody q.
    destruct (N.ltb_spec D (off + 6 + 2 + q)) as [L3|L3].
    { exists w, (inr (Er short_read)). split; auto. rewrite run_bind, (reads_short r2 _ _ w A2) by lia. reflexivity. }
    destruct (reads_prepare r2 (off + 6 + 2) q w A2 Hf L3) as (r3 & R3 & A3).
    rewrite run_bind, R3. cbv beta iota zeta. eexists _, _. split; [reflexivity|]. right.
    eexists _, _, _, _. split; [reflexivity|]. auto.
Qed.

(** Reading [d] from [off] one meets a record that is not complete. *)
Inductive runs_short : N -> Prop :=
| short_here off : off < D -> frame off = None -> runs_short off
| short_later off o : off < D -> frame off = Some o -> runs_short o -> runs_short off.

Lemma pass_any : forall m t buf dw r w off, writer_ok w dw -> buf_fit bn buf -> reads_at r off -> off <= D ->
  (N.to_nat (D - off) <= m)%nat ->
  exists n w1 x, (n <= S m)%nat /\ loops step n (t, buf, dw, r) w w1 x /\
    match x with
    | Er er => failed w1 er
    | Ok (t1, buf1, dw1) => writer_ok w1 dw1 /\ blen buf1 = bn * bs /\ ~ runs_short off
    end.
Proof using e Hcap Hbs.
  induction m as [|m IH]; intros t buf dw r w off Hw Hb Hr Ho Hm; destruct (N.eq_dec off D) as [->|Hne]; try lia.
  1,2: exists 1%nat, w, (Ok (t, buf, dw)); (split; [lia|]); (split;
    [apply loops_done; unfold rekey_step; rewrite (reads_eof _ _ Hr), N.leb_refl; reflexivity|]);
    (split; [exact Hw|]); (split; [apply Hb|]); intros X; inversion X; lia.
  assert (Hlt : off < D) by lia.
  destruct (step_any t buf dw r w off Hw Hb Hr Hlt) as (w1 & x & Rx & Hx). destruct (frame off) as [o|] eqn:Ef.
  - pose proof (frame_bounds _ _ Ef) as Hfb. destruct Hx as [(er & -> & Hf)|(t1 & buf1 & dw1 & r1 & -> & Hw1 & Hb1 & Hr1)].
    + exists 1%nat, w1, (Er er). split; [lia|]. split; [apply loops_done; exact Rx|exact Hf].
    + destruct (IH t1 buf1 dw1 r1 w1 o Hw1 Hb1 Hr1) as (n & w2 & y & Hn & Hl & Hy); [lia|lia|].
      exists (S n), w2, y. split; [lia|]. split; [eapply loops_more; eauto|].
      destruct y as [[[t2 buf2] dw2]|er]; [|exact Hy]. destruct Hy as (A & B & C). split; [exact A|]. split; [exact B|].
      intros X. apply C. inversion X; [congruence|]. assert (o0 = o) by congruence. subst. assumption.
  - destruct Hx as [-> ->]. exists 1%nat, w, (Er short_read). split; [lia|]. split; [apply loops_done; exact Rx|].
    split; [apply Hw|]. left. reflexivity.
Qed.
End Any.

Section Passes.
Variables (e : env) (kh : key_header) (d : bytes) (chunk total : N).
Notation bs := (kh_block_size kh).
Notation NB := (kh_buckets kh).
Hypothesis Hcap : 1 <= bucket_capacity bs.
Hypothesis Hbs : bs <= 65535.
Hypothesis Hchunk : 1 <= chunk.
Hypothesis Hd : 92 <= blen d.
Hypothesis HD : blen d < 18446744073709551616.

Lemma zeros_fit bn : buf_fit kh bn (zeros (bn * bs)).
Proof using e Hcap Hbs.
  clear Hchunk Hd HD. split; [apply blen_zeros|]. intros i Hi.
  assert (E : zeros (bn * bs) = zeros (i * bs) ++ zeros bs ++ zeros ((bn - i - 1) * bs)).
  { rewrite !zeros_app. f_equal. nia. }
  rewrite E, bsub_app_eq by (rewrite blen_zeros; reflexivity).
  destruct (empty_fit e bs Hcap Hbs) as (A & B & C). split; [apply blen_zeros|].
  cbn [bk_empty bk_blob bk_size] in C. rewrite C. lia.
Qed.

Lemma passes_any : forall m b0 t dw w, writer_ok d w dw -> (N.to_nat (NB - b0) <= m)%nat ->
  exists n w1 x, (n <= S m)%nat /\ loops (rekey_pass e kh (blen d) chunk total) n (b0, t, dw) w w1 x /\
    match x with
    | Er er => failed d w1 er
    | Ok (t1, dw1) => writer_ok d w1 dw1 /\ (b0 < NB -> ~ runs_short kh d 92)
    end.
Proof using All.
  induction m as [|m IH]; intros b0 t dw w Hw Hm; destruct (N.leb_spec NB b0) as [L|L]; try lia.
  1,2: exists 1%nat, w, (Ok (t, dw)); (split; [lia|]); (split; [apply loops_done; unfold rekey_pass;
    apply N.leb_le in L; rewrite L; reflexivity|]); (split; [exact Hw|lia]).
  set (bn := N.min (b0 + chunk) NB - b0). set (r := br_make FDat dat_hdr_size (blen d) rekey_read_size).
  assert (Hr : reads_at d r 92).
  { unfold reads_at, r. rewrite br_make_offset. cbn [br_make br_file br_last]. split; [|auto].
    apply br_make_inv; [exact Hd|lia]. }
  destruct (pass_any e kh d Hcap Hbs b0 bn (b0 / chunk * blen d) total _ t (zeros (bn * bs)) dw r w 92 Hw (zeros_fit bn) Hr Hd (le_n _))
    as (n & w1 & x & Hn & Hl & Hx).
  assert (Hlr : run (loop (rekey_step e kh b0 bn (b0 / chunk * blen d) total) (t, zeros (bn * bs), dw, r)) w = (w1, x)).
  { apply (loop_run _ _ _ _ _ _ Hl). lia. }
  assert (Run : run (rekey_pass e kh (blen d) chunk total (b0, t, dw)) w =
    match x with
    | Er er => (w1, inr (Er er))
    | Ok (t, buf, dw) => run (bind (p_write FKey false ((b0 + 1) * bs) buf) (fun a =>
        match a with
        | Er er => Ret (inr (Er er))
        | Ok _ => Ret (inl (b0 + chunk, t, dw))
        end)) w1
    end).
  { unfold rekey_pass. replace (NB <=? b0) with false by lia.
    cbv zeta. fold bn. fold r. rewrite run_bind, Hlr. destruct x as [[[t1 buf1] dw1]|er]; reflexivity. }
  destruct x as [[[t1 buf1] dw1]|er].
  - destruct Hx as (Hw1 & _ & Hns). destruct Hw1 as (((x & Hx) & (K & HK) & HL) & (c & Hi) & Hz).
    rewrite run_bind, (run_write FKey _ _ _ _ HK) in Run. cbv beta iota in Run. cbn [run] in Run.
    match type of Run with _ = (?W, _) => set (w2 := W) in * end.
    assert (Hw2 : writer_ok d w2 dw1).
    { unfold w2. split; [|split; [|exact Hz]].
      - split; [exists x; rewrite wget_wset_other by discriminate; exact Hx|].
        split; [eexists; apply wget_wset_same|]. rewrite wget_wset_other by discriminate. exact HL.
      - exists c. destruct Hi as [A1 A2 (d1 & A3 & A4 & A5)]. constructor; auto. exists d1.
        rewrite wget_wset_other by discriminate. auto. }
    destruct (IH (b0 + chunk) t1 dw1 w2 Hw2) as (n2 & w3 & y & Hn2 & Hl2 & Hy); [lia|].
    exists (S n2), w3, y. split; [lia|]. split; [eapply loops_more; eauto|].
    destruct y as [[t2 dw2]|er]; [|exact Hy]. split; [apply Hy|]. intros _. exact Hns.
  - exists 1%nat, w1, (Er er). split; [lia|]. split; [apply loops_done; exact Run|exact Hx].
Qed.
End Passes.

(** ** Records and frames *)
Section Frames.
Variables (kh : key_header) (d : bytes).
Notation ks := (kh_key_size kh).
Lemma L6 n : blen (be 6 n) = 6. Proof using. rewrite <- wr48_be. apply blen_wr48. Qed.
Lemma L2 n : blen (be 2 n) = 2. Proof using. rewrite <- wr16_be. apply blen_wr16. Qed.

Lemma frame_record pre r post : d = pre ++ image r ++ post -> record_ok ks r ->
  frame kh d (blen pre) = Some (blen pre + blen (image r)).
Proof using.
  intros E Hr. assert (Ld : blen d = blen pre + blen (image r) + blen post) by (rewrite E, !blen_app; lia).
  unfold frame. destruct r as [k v|c]; cbn [image record_ok] in *.
  - change (2 ^ 32) with 4294967296 in Hr. rewrite <- app_assoc in E. rewrite !blen_app, L6 in *.
    replace (blen d <? blen pre + 6) with false by lia.
    assert (E6 : bsub (blen pre) 6 d = be 6 (blen v)) by (rewrite E; apply bsub_app_eq; [reflexivity|rewrite L6; reflexivity]).
    rewrite E6, <- wr48_be, rd_size48_wr48 by lia. cbv zeta. replace (0 <? blen v) with true by lia.
    replace (blen d <? blen pre + 6 + (ks + blen v)) with false by lia. f_equal. lia.
  - change (2 ^ 16) with 65536 in Hr. rewrite <- !app_assoc in E. rewrite !blen_app, L6, L2 in *.
    replace (blen d <? blen pre + 6) with false by lia.
    assert (E6 : bsub (blen pre) 6 d = be 6 0) by (rewrite E; apply bsub_app_eq; [reflexivity|rewrite L6; reflexivity]).
    rewrite E6, <- wr48_be, rd_size48_wr48 by lia. cbv zeta. change (0 <? 0) with false. cbv iota.
    replace (blen d <? blen pre + 6 + 2) with false by lia.
    assert (E2 : bsub (blen pre + 6) 2 d = be 2 (blen c)).
    { rewrite E, (app_assoc pre). apply bsub_app_eq; rewrite ?blen_app, ?L6, ?L2; reflexivity. }
    rewrite E2, <- wr16_be, rd_wr16 by lia.
    replace (blen d <? blen pre + 6 + 2 + blen c) with false by lia. f_equal. lia.
Qed.

Lemma frame_cut pre rest er : d = pre ++ rest -> cut_short ks rest er -> blen pre < blen d /\ frame kh d (blen pre) = None.
Proof using.
  intros E Hc. assert (Ld : blen d = blen pre + blen rest) by (rewrite E, !blen_app; lia).
  unfold frame. destruct Hc as [x Hx|s x Hs Hx|x Hx|s x Hs Hx].
  - split; [lia|]. replace (blen d <? blen pre + 6) with true by lia. reflexivity.
  - change (2 ^ 32) with 4294967296 in Hs. rewrite blen_app, L6 in Ld. split; [lia|].
    replace (blen d <? blen pre + 6) with false by lia.
    assert (E6 : bsub (blen pre) 6 d = be 6 s) by (rewrite E; apply bsub_app_eq; [reflexivity|rewrite L6; reflexivity]).
    rewrite E6, <- wr48_be, rd_size48_wr48 by lia. cbv zeta. replace (0 <? s) with true by lia.
    replace (blen d <? blen pre + 6 + (ks + s)) with true by lia. reflexivity.
  - rewrite blen_app, L6 in Ld. split; [lia|].
    replace (blen d <? blen pre + 6) with false by lia.
    assert (E6 : bsub (blen pre) 6 d = be 6 0) by (rewrite E; apply bsub_app_eq; [reflexivity|rewrite L6; reflexivity]).
    rewrite E6, <- wr48_be, rd_size48_wr48 by lia. cbv zeta. change (0 <? 0) with false. cbv iota.
    replace (blen d <? blen pre + 6 + 2) with true by lia. reflexivity.
  - change (2 ^ 16) with 65536 in Hs. rewrite !blen_app, L6, L2 in Ld. split; [lia|].
    replace (blen d <? blen pre + 6) with false by lia.
    assert (E6 : bsub (blen pre) 6 d = be 6 0) by (rewrite E; apply bsub_app_eq; [reflexivity|rewrite L6; reflexivity]).
    rewrite E6, <- wr48_be, rd_size48_wr48 by lia. cbv zeta. change (0 <? 0) with false. cbv iota.
    replace (blen d <? blen pre + 6 + 2) with false by lia.
    assert (E2 : bsub (blen pre + 6) 2 d = be 2 s).
    { rewrite E, (app_assoc pre). apply bsub_app_eq; rewrite ?blen_app, ?L6, ?L2; reflexivity. }
    rewrite E2, <- wr16_be, rd_wr16 by lia.
    replace (blen d <? blen pre + 6 + 2 + s) with true by lia. reflexivity.
Qed.

Lemma cut_runs_short l : forall pre rest er, d = pre ++ flat_map image l ++ rest -> Forall (record_ok ks) l ->
  cut_short ks rest er -> runs_short kh d (blen pre).
Proof using.
  induction l as [|r l IH]; intros pre rest er E Hl Hc.
  - destruct (frame_cut pre rest er E Hc). apply short_here; assumption.
  - apply Forall_cons_iff in Hl. destruct Hl as [H1 Hl]. cbn [flat_map] in E. rewrite <- app_assoc in E.
    pose proof (frame_record pre r _ E H1) as F. apply (short_later kh d (blen pre) (blen pre + blen (image r))); [|exact F|].
    + pose proof (frame_bounds kh d _ _ F). lia.
    + rewrite <- blen_app. apply (IH (pre ++ image r) rest er); auto. rewrite <- app_assoc. exact E.
Qed.
End Frames.

Lemma create_any e a dh lf nb D w : wget w FKey = None -> wget w FLog = None ->
  exists K L, run (rekey_create (rekey_key_header e a dh lf nb) D) w = (wset (wset w FKey (Some K)) FLog (Some L), Ok tt).
Proof.
  intros K L. unfold rekey_create. set (kh := rekey_key_header e a dh lf nb). clearbody kh.
  rewrite (run_ebind_ok _ _ _ _ _ (run_create _ _ K)).
  erewrite run_ebind_ok by (eapply run_write; apply wget_wset_same). rewrite wset_wset.
  erewrite run_ebind_ok by (eapply run_sync; apply wget_wset_same).
  erewrite run_ebind_ok by (eapply run_create; rewrite wget_wset_other by discriminate; exact L).
  erewrite run_ebind_ok by (eapply run_append; [apply wget_wset_same|reflexivity]). rewrite wset_wset.
  erewrite run_ebind_ok by (eapply run_sync; apply wget_wset_same).
  erewrite run_ebind_ok by (eapply run_write; rewrite wget_wset_other by discriminate; apply wget_wset_same).
  erewrite run_ebind_ok by (eapply run_sync; apply wget_wset_same).
  erewrite run_ebind_ok by (eapply run_write; apply wget_wset_same). rewrite wset_wset.
  erewrite run_sync by apply wget_wset_same.
  eexists _, _. destruct w; cbn. reflexivity.
Qed.

(** ** The theorem *)
Lemma rekey_any e a d : good_rekey a ->
  bytes_ok d -> 92 <= blen d -> first_failed (dat_checks d) = None -> blen d < 2 ^ 64 ->
  exists w' r, run (rekey e a) (World (Some d) None None) = (w', r) /\
    (exists x, w_dat w' = Some (d ++ x)) /\ w_key w' <> None /\
    (((exists t, r = Ok t) /\ w_log w' = None) \/
     ((r = Er short_read \/ r = Er EAssert /\ near_limit w') /\ w_log w' <> None)) /\
    forall l rest, parsed (num_at 26 2 d) (bdrop 92 d) l rest ->
      (exists er, cut_short (num_at 26 2 d) rest er) -> forall t, r <> Ok t.
Proof.
  intros Hg Hb Hl Hc HD. destruct (good_rekey_ready a Hg) as (lf & nb & Ha).
  pose proof Ha as (A1 & A2 & A3 & A4 & A5 & A6 & A7 & A8).
  change (2 ^ 64) with 18446744073709551616 in HD.
  assert (Ed : d = btake 92 d ++ images [] ++ bdrop 92 d) by (cbn [images flat_map app]; apply take_drop).
  assert (Hh : blen (btake 92 d) = 92) by (rewrite blen_btake; lia).
  assert (S : verify_dat (dh_of d) = Ok tt /\ dh_key_size (dh_of d) = num_at 26 2 d /\ 1 <= num_at 26 2 d).
  { pose proof (visit_start (btake 92 d) [] (bdrop 92 d) Hh (bytes_ok_btake _ _ Hb)) as X.
    rewrite <- Ed in X. exact (X Hc). }
  destruct S as (Hv & Hk & H1). set (w := World (Some d) None None).
  assert (Hw : wget w FDat = Some d) by reflexivity.
  assert (Dl : dat_hdr_size <= blen d) by (unfold dat_hdr_size; lia).
  assert (Rs : run rekey_start w = (w, Ok (dh_of d, blen d))).
  { unfold rekey_start.
    rewrite (run_ebind_ok _ _ _ _ _ (run_open FDat w d Hw)).
    rewrite (run_ebind_ok _ _ _ _ _ (read_dat d Dl w Hw)). rewrite Hv.
    rewrite (run_ebind_ok (plift (Ok tt)) _ w w tt eq_refl).
    rewrite (run_ebind_ok _ _ _ _ _ (run_sz FDat w d Hw)).
    rewrite (run_bind_eq _ _ _ _ _ (run_open_none FLog w eq_refl)). reflexivity. }
  set (kh := rekey_key_header e a (dh_of d) lf nb).
  destruct (create_any e a (dh_of d) lf nb (blen d) w eq_refl eq_refl) as (K & L & Rc). fold kh in Rc.
  set (w1 := wset (wset w FKey (Some K)) FLog (Some L)) in *.
  assert (Hcap : 1 <= bucket_capacity (kh_block_size kh)) by (apply cap_104; exact A2).
  set (c := rekey_chunk a). set (total := rekey_work a nb (blen d)).
  assert (Hch : 1 <= c) by (unfold c, rekey_chunk; lia).
  set (dw := bw_make FDat true (blen d) rekey_write_size).
  assert (W1 : wget w1 FDat = Some d) by reflexivity.
  assert (Hw1 : writer_ok d w1 dw).
  { split; [|split].
    - split; [exists []; rewrite app_nil_r; exact W1|]. split; [exists K; reflexivity|exists L; reflexivity].
    - exists d. apply bw_make_inv. exact W1.
    - split; unfold datbuf, dw, bw_make, rekey_write_size; cbn [bw_buf bw_cap]; rewrite ?blen_nil; lia. }
  destruct (passes_any e kh d c total Hcap A3 Hch Hl HD (N.to_nat nb) 0 [(0, total)] dw w1 Hw1) as (n & w2 & x & Hn & Hlp & Hx).
  { change (kh_buckets kh) with nb. lia. }
  assert (Hlr : run (loop (rekey_pass e kh (blen d) c total) (0, [(0, total)], dw)) w1 = (w2, x)).
  { apply (loop_run _ _ _ _ _ _ Hlp). nia. }
  assert (Run : run (rekey e a) w = run (rekey_build e a kh (blen d)) w1).
  { unfold rekey. rewrite (run_ebind_ok _ _ _ _ _ Rs). cbv beta iota. rewrite A4, A6.
    replace (bucket_capacity (ra_block_size a) =? 0) with false
      by (change (kh_block_size kh) with (ra_block_size a) in Hcap; lia).
    cbv zeta. fold kh. rewrite (run_ebind_ok _ _ _ _ _ Rc). reflexivity. }
  assert (Build : rekey_build e a kh (blen d) =
    ('(t, dw) <- loop (rekey_pass e kh (blen d) c total) (0, [(0, total)], dw) ;; bw_flush dw ;;; p_erase FLog ;;; pret t)) by reflexivity.
  rewrite Run, Build. destruct x as [[t1 dw1]|er].
  - destruct Hx as ((Hf & (cc & Hi) & _) & Hns). rewrite (run_ebind_ok _ _ _ _ _ Hlr). cbv beta iota.
    destruct (run_bw_flush _ _ _ _ Hi) as (dw2 & Rf & _ & _ & _). rewrite (run_ebind_ok _ _ _ _ _ Rf).
    destruct Hf as ((y & Hy) & (KK & HKK) & (LL & HLL)).
    rewrite (run_ebind_ok _ _ _ _ _ (run_erase FLog (wset w2 FDat (Some cc)) LL HLL)).
    eexists _, _. split; [reflexivity|]. split; [|split; [|split; [left; split; [eauto|reflexivity]|]]].
    + destruct Hi as [_ _ (d1 & Hd1 & _ & ->)]. assert (d1 = d ++ y) by congruence. subst d1.
      exists (y ++ bw_buf dw1). rewrite app_assoc. reflexivity.
    + change (wget w2 FKey <> None). rewrite HKK. discriminate.
    + intros l rest (E & Hok & _) (er & Hcut) _ _. assert (P : 0 < kh_buckets kh) by (change (kh_buckets kh) with nb; lia). apply (Hns P).
      rewrite <- Hh. apply (cut_runs_short kh d l (btake 92 d) rest er).
      * rewrite <- E. apply take_drop.
      * change (kh_key_size kh) with (dh_key_size (dh_of d)). rewrite Hk. exact Hok.
      * change (kh_key_size kh) with (dh_key_size (dh_of d)). rewrite Hk. exact Hcut.
  - rewrite (run_ebind_er _ _ _ _ _ Hlr). destruct Hx as (((y & Hy) & (KK & HKK) & (LL & HLL)) & Hx).
    eexists _, _. split; [reflexivity|]. split; [exists y; exact Hy|]. split; [|split].
    + change (wget w2 FKey <> None). rewrite HKK. discriminate.
    + right. split; [destruct Hx as [->|[-> Hx]]; auto|]. change (wget w2 FLog <> None). rewrite HLL. discriminate.
    + intros _ _ _ _ t X. discriminate X.
Qed.

From Verif Require Import Proofs.SafeFacts Proofs.EventFacts Proofs.RekeyTheorems.

Lemma run_all_steps ordf {A} (p : prog A) : forall w S w' a, run p w = (w', a) ->
  steps ordf p w S (Ret a) w' (srun ordf p w S).
Proof.
  induction p as [a|o k IH]; intros w S w' x H; cbn [run srun] in *.
  - inversion H; subst. constructor.
  - destruct (exec o w) as [w1 y] eqn:E. constructor. rewrite E. apply IH. exact H.
Qed.

Lemma rekey_failed e a d w' er : good_rekey a ->
  bytes_ok d -> 92 <= blen d -> first_failed (dat_checks d) = None -> blen d < 2 ^ 64 ->
  run (rekey e a) (World (Some d) None None) = (w', Er er) ->
  exists res, run (recover e) w' = (World (Some d) None None, res) /\
    (res = Ok tt \/ res = Er no_key_file \/ res = Er ENoEnt).
Proof.
  intros Hg Hb Hl Hc HD R. set (w := World (Some d) None None) in *.
  refine (rekey_stopped e a w d Hg eq_refl eq_refl eq_refl Hb Hl HD Hc _ _ _ w'
    (run_all_steps log_in_order _ _ (durable w) _ _ R) _ _).
  - intros t X. discriminate X.
  - exact (live_run log_in_order _ _ _ _ _ R (durable_live w)).
Qed.
