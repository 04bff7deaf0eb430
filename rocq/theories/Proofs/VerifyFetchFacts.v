(** The count of fetches made by verify() and the reads made by fetch(). *)
From Verif Require Import Model.Bytes Model.Err Model.Field Model.Format Model.IO
  Model.BulkIO Model.Bucket Model.Pool Model.Recover Model.Create Model.Store Model.History Model.Visit
  Model.Verify Model.VerifyProgress Model.VerifyFetch Model.Events
  Proofs.BytesFacts Proofs.FieldFacts Proofs.IOFacts Proofs.PoolFacts Proofs.BucketFacts
  Proofs.BulkFacts Proofs.HashFacts Proofs.Table Proofs.Lookup Proofs.SplitFacts
  Proofs.CommitFacts Proofs.CommitInv Proofs.CommitRun Proofs.HeaderFacts Proofs.StoreInv
  Proofs.OpenFacts Proofs.RecoverFacts
  Proofs.FormatFacts Proofs.RefuseFacts Proofs.VisitFacts Proofs.WrittenFacts Proofs.VerifyFacts Proofs.VerifyFast
  Spec SpecFormat SpecHeader SpecVisit SpecVerify SpecFetch.

(** ** Counting reads *)
Lemma nreads_bind {A B} (p : prog A) (f : A -> prog B) : forall w,
  nreads (bind p f) w = nreads p w + nreads (f (snd (run p w))) (fst (run p w)).
Proof.
  induction p as [a|o k IH]; intros w; cbn [bind nreads run fst snd]; [lia|].
  destruct (exec o w) as [w' r]. rewrite IH. lia.
Qed.
Lemma nreads_bind_eq {A B} (p : prog A) (f : A -> prog B) w w' x :
  run p w = (w', x) -> nreads (bind p f) w = nreads p w + nreads (f x) w'.
Proof. intros E. rewrite nreads_bind, E. reflexivity. Qed.
Lemma nreads_ebind_ok {A B} (p : prog (res A)) (f : A -> prog (res B)) w w' x :
  run p w = (w', Ok x) -> nreads (ebind p f) w = nreads p w + nreads (f x) w'.
Proof. intros E. unfold ebind. rewrite (nreads_bind_eq _ _ _ _ _ E). reflexivity. Qed.
Lemma nreads_read f off len w : nreads (p_read f off len) w = 1.
Proof. unfold p_read, do_data. cbn [nreads is_read]. destruct (exec _ w) as [w' [er|n d]]; reflexivity. Qed.
Lemma nreads_bk_read b f off w : nreads (bk_read b f off) w = 1.
Proof.
  unfold bk_read. cbv zeta. unfold ebind. rewrite nreads_bind, nreads_read.
  destruct (run _ w) as [w' [d|er]]; cbn [fst snd]; [|reflexivity]. destruct (_ <? _); reflexivity.
Qed.

Lemma nreads_itern_add {S R} (step : S -> prog (S + R)) a b : forall s w,
  nreads (itern (a + b) step s) w =
  nreads (bind (itern a step s) (fun r => match r with inl s' => itern b step s' | inr x => Ret (inr x) end)) w.
Proof.
  induction a as [|a IH]; intros s w; cbn [Nat.add itern bind]; [reflexivity|].
  rewrite !nreads_bind, run_bind. destruct (run (step s) w) as [w' [s'|x]]; cbn [fst snd nreads run]; [|lia].
  rewrite IH, nreads_bind. lia.
Qed.
Lemma nreads_iterp {S R} (step : S -> prog (S + R)) p : forall s w,
  nreads (iterp p step s) w = nreads (itern (Pos.to_nat p) step s) w.
Proof.
  induction p as [q IH|q IH|]; intros s w.
  - rewrite Pos2Nat.inj_xI. change (Datatypes.S (2 * Pos.to_nat q)) with (1 + 2 * Pos.to_nat q)%nat.
    rewrite nreads_itern_add. cbn [iterp itern].
    rewrite !nreads_bind, run_bind. destruct (run (step s) w) as [w' [s'|x]]; cbn [fst snd nreads run]; [|lia].
    replace (2 * Pos.to_nat q)%nat with (Pos.to_nat q + Pos.to_nat q)%nat by lia.
    rewrite nreads_itern_add, !nreads_bind, IH, run_iterp.
    destruct (run (itern (Pos.to_nat q) step s') w') as [w1 [s1|x]]; cbn [fst snd nreads]; rewrite ?IH; lia.
  - rewrite Pos2Nat.inj_xO. cbn [iterp].
    replace (2 * Pos.to_nat q)%nat with (Pos.to_nat q + Pos.to_nat q)%nat by lia.
    rewrite nreads_itern_add, !nreads_bind, IH, run_iterp.
    destruct (run (itern (Pos.to_nat q) step s) w) as [w1 [s1|x]]; cbn [fst snd nreads]; rewrite ?IH; lia.
  - cbn [iterp]. change (Pos.to_nat 1) with 1%nat. cbn [itern]. rewrite nreads_bind.
    destruct (run (step s) w) as [w' [s'|x]]; cbn [fst snd nreads]; lia.
Qed.

(** The loop leaves after exactly [n] iterations that make [c] reads. *)
Inductive cloops {S R} (step : S -> prog (S + R)) : nat -> S -> world -> world -> R -> N -> Prop :=
| cloops_done s w w' r c : run (step s) w = (w', inr r) -> nreads (step s) w = c -> cloops step 1 s w w' r c
| cloops_more n s s1 w w1 w' r c c1 :
    run (step s) w = (w1, inl s1) -> nreads (step s) w = c1 -> cloops step n s1 w1 w' r c ->
    cloops step (Datatypes.S n) s w w' r (c1 + c).

Lemma cloops_loops {S R} (step : S -> prog (S + R)) n s w w' r c :
  cloops step n s w w' r c -> loops step n s w w' r.
Proof. induction 1; [constructor; auto|eapply loops_more; eauto]. Qed.
Lemma cloops_itern {S R} (step : S -> prog (S + R)) n s w w' r c :
  cloops step n s w w' r c -> forall m, (n <= m)%nat -> nreads (itern m step s) w = c.
Proof.
  induction 1 as [s w w' r c H H1|n s s1 w w1 w' r c c1 H H1 H2 IH]; intros m Hm.
  - destruct m as [|m]; [lia|]. cbn [itern]. rewrite (nreads_bind_eq _ _ _ _ _ H), H1. cbn [nreads]. lia.
  - destruct m as [|m]; [lia|]. cbn [itern]. rewrite (nreads_bind_eq _ _ _ _ _ H), H1, IH by lia. reflexivity.
Qed.
Lemma cloops_loop {S R} (step : S -> prog (S + res R)) n s w w' r c :
  cloops step n s w w' r c -> N.of_nat n <= 18446744073709551616 ->
  run (loop step s) w = (w', r) /\ nreads (loop step s) w = c.
Proof.
  intros H Hn. split; [eapply loop_run; [eapply cloops_loops; eauto|exact Hn]|].
  unfold loop. rewrite nreads_bind, nreads_iterp, run_iterp.
  assert (Hm : (n <= Pos.to_nat fuel)%nat) by (unfold fuel; lia).
  rewrite (cloops_itern _ _ _ _ _ _ _ H) by exact Hm.
  rewrite (loops_itern _ _ _ _ _ _ (cloops_loops _ _ _ _ _ _ _ H)) by exact Hm. cbn [fst snd nreads]. lia.
Qed.
Opaque loop.

(** ** The search in verify() and the one in fetch() *)
Lemma vfindc_scan_fst fuel h o b : forall i f, fst (vfindc_scan fuel h o b i f) = vfind_scan fuel h o b i.
Proof.
  induction fuel as [|fuel IH]; intros i f; cbn [vfindc_scan vfind_scan]; [reflexivity|]. cbv zeta.
  destruct (negb _); [reflexivity|]. destruct (_ =? _); [reflexivity|]. apply IH.
Qed.

Section Find.
Variables (e : env) (kh : key_header).
Notation H := (e_hasher e).
Notation salt := (kh_salt kh).
Notation ks := (kh_key_size kh).
Notation bs := (kh_block_size kh).
Hypothesis Hcap : 1 <= bucket_capacity bs.
Hypothesis Hbs : bs <= 65535.
Variables (w w' : world) (d : bytes) (P : list (N * drec)).
Hypothesis Hw : wget w FDat = Some d.
Hypothesis Hw' : wget w' FDat = Some d.
Hypothesis Hd : holds d P.
Hypothesis HP : functional P.
Variables (k v : bytes) (o h : N).
Hypothesis Hin : In (o, DRec k v) P.
Hypothesis Huniq : forall o' v', In (o', DRec k v') P -> o' = o.
Hypothesis Hk : blen k = ks.

Lemma scan_lock b b' es sp fuel : forall i f,
  bk_rep bs b es sp -> bk_rep bs b' es sp -> Forall (linked H salt ks P) es ->
  i <= blen es -> fuel = N.to_nat (blen es - i) ->
  exists c,
    (vfindc_scan fuel h o b i f = (true, f + c) /\ run (fetch_scan fuel ks h k b' i) w' = (w', Ok (Some v)) /\
     nreads (fetch_scan fuel ks h k b' i) w' = c + 1) \/
    (vfindc_scan fuel h o b i f = (false, f + c) /\ run (fetch_scan fuel ks h k b' i) w' = (w', Ok None) /\
     nreads (fetch_scan fuel ks h k b' i) w' = c).
Proof using All.
  induction fuel as [|fuel IH]; intros i f Hb Hb' Hl Hi Hf.
  - exists 0. right. rewrite N.add_0_r. split; [|split]; reflexivity.
  - assert (Hlt : i < blen es) by (clear - Hi Hf; lia).
    cbn [vfindc_scan fetch_scan]; cbv zeta. rewrite (bk_at_rep _ _ _ _ _ Hb Hlt), (bk_at_rep _ _ _ _ _ Hb' Hlt).
    destruct (N.eqb_spec (en_hash (nthN es i en0)) h) as [E|E]; cbn [negb].
    + pose proof Hl as Hl0. rewrite Forall_forall in Hl.
      destruct (Hl _ (nthN_In es i en0 Hlt)) as (k' & v' & Hin' & Hsz & Hh & Hkk).
      destruct (read_data ks d P _ k' v' Hd Hin' Hkk) as [R1 R2].
      rewrite Hsz. rewrite (run_ebind_ok _ _ _ _ _ (run_read _ _ _ _ _ Hw' R1)), R2.
      rewrite (nreads_ebind_ok _ _ _ _ _ (run_read _ _ _ _ _ Hw' R1)), R2, nreads_read.
      rewrite btake_app_eq, bdrop_app_eq by (clear - Hkk; auto).
      destruct (N.eqb_spec (en_off (nthN es i en0)) o) as [Eo|Eo].
      * rewrite Eo in Hin'. pose proof (HP _ _ _ Hin' Hin) as Q. injection Q as -> ->.
        rewrite beq_refl. exists 0. left. rewrite N.add_0_r. split; [|split]; reflexivity.
      * destruct (beq k' k) eqn:Ek.
        { apply beq_eq in Ek. subst k'. exfalso. apply Eo. eapply Huniq; eauto. }
        destruct (IH (i + 1) (f + 1)) as (c & [(A & B & C)|(A & B & C)]); auto; try (clear - Hi Hf Hlt; lia).
        -- exists (1 + c). left. rewrite A, B, C. split; [f_equal; clear; lia|]. split; [reflexivity|clear; lia].
        -- exists (1 + c). right. rewrite A, B, C. split; [f_equal; clear; lia|]. split; [reflexivity|clear; lia].
    + exists 0. right. rewrite N.add_0_r. split; [|split]; reflexivity.
Qed.

Lemma find_lock sp ces : chain bs P sp ces -> forall b b' es f,
  bk_rep bs b es sp -> bk_rep bs b' es sp -> ents_ok es -> Forall (linked H salt ks P) (es ++ ces) ->
  (exists en, In en (es ++ ces) /\ en_hash en = h /\ en_off en = o) ->
  exists n c, N.of_nat n <= sp + 1 /\
    loops (vfindc_step e bs h o) n (b, f) w w (Ok (f + c)) /\
    cloops (fetch_step e kh h k) n b' w' w' (Ok v) (c + 1).
Proof using All.
  induction 1 as [|sp es2 sp' ces H8 Hsp Hsin Hlen Hok Hlt Hch IH]; intros b b' es f Hb Hb' Hes Hl (en & Hen & Hh & Ho).
  - rewrite app_nil_r in *. pose proof (rep_cap _ _ _ _ Hb) as Hc.
    destruct (scan_lock b b' es 0 (N.to_nat (blen es - lb es h)) (lb es h) f) as (c & [(A & B & C)|(A & B & C)]); auto using lb_le.
    + exists 1%nat, c. split; [clear; lia|]. split; constructor.
      * unfold vfindc_step. rewrite (rep_size _ _ _ _ Hb). replace (bucket_capacity bs <? blen es) with false by (clear - Hc; lia).
        cbv zeta. rewrite (lower_bound_rep _ _ _ _ _ Hb (proj1 Hes)), A. reflexivity.
      * unfold fetch_step. rewrite (rep_size _ _ _ _ Hb'), (lower_bound_rep _ _ _ _ _ Hb' (proj1 Hes)).
        rewrite (run_bind_eq _ _ _ _ _ B). reflexivity.
      * unfold fetch_step. rewrite (rep_size _ _ _ _ Hb'), (lower_bound_rep _ _ _ _ _ Hb' (proj1 Hes)).
        rewrite (nreads_bind_eq _ _ _ _ _ B), C. cbn [nreads]. clear; lia.
    + exfalso. pose proof (vfindc_scan_fst (N.to_nat (blen es - lb es h)) h o b (lb es h) f) as X. rewrite A in X. cbn [fst] in X.
      rewrite (vfind_scan_ok bs Hcap Hbs b es 0 h o _ (lb es h) Hb (proj1 Hes)) in X; auto using lb_le; try discriminate X; try (clear; lia).
      exists en. split; auto. apply bdrop_lb; auto. apply Hes.
  - pose proof (rep_cap _ _ _ _ Hb) as Hc. apply Forall_app in Hl as [Hl1 Hl2].
    destruct (scan_lock b b' es sp (N.to_nat (blen es - lb es h)) (lb es h) f) as (c & [(A & B & C)|(A & B & C)]); auto using lb_le.
    + exists 1%nat, c. split; [clear; lia|]. split; constructor.
      * unfold vfindc_step. rewrite (rep_size _ _ _ _ Hb). replace (bucket_capacity bs <? blen es) with false by (clear - Hc; lia).
        cbv zeta. rewrite (lower_bound_rep _ _ _ _ _ Hb (proj1 Hes)), A. reflexivity.
      * unfold fetch_step. rewrite (rep_size _ _ _ _ Hb'), (lower_bound_rep _ _ _ _ _ Hb' (proj1 Hes)).
        rewrite (run_bind_eq _ _ _ _ _ B). reflexivity.
      * unfold fetch_step. rewrite (rep_size _ _ _ _ Hb'), (lower_bound_rep _ _ _ _ _ Hb' (proj1 Hes)).
        rewrite (nreads_bind_eq _ _ _ _ _ B), C. cbn [nreads]. clear; lia.
    + apply in_app_iff in Hen as [Hen|Hen].
      { exfalso. pose proof (vfindc_scan_fst (N.to_nat (blen es - lb es h)) h o b (lb es h) f) as X. rewrite A in X. cbn [fst] in X.
        rewrite (vfind_scan_ok bs Hcap Hbs b es sp h o _ (lb es h) Hb (proj1 Hes)) in X; auto using lb_le; try discriminate X; try (clear; lia).
        exists en. split; auto. apply bdrop_lb; auto. apply Hes. }
      destruct (read_spill bs e d P w sp es2 sp') as (b2 & Hb2 & R2); auto; [clear - Hsp Hlt; lia|].
      destruct (read_spill bs e d P w' sp es2 sp') as (b3 & Hb3 & R3); auto; [clear - Hsp Hlt; lia|].
      destruct (IH b2 b3 es2 (f + c + 1) R2 R3 Hok Hl2 (ex_intro _ en (conj Hen (conj Hh Ho)))) as (n & c2 & Hn & L1 & L2).
      exists (Datatypes.S n), (c + 1 + c2). split; [clear - Hn Hlt; lia|]. split.
      * eapply loops_more; [|replace (f + (c + 1 + c2)) with (f + c + 1 + c2) by (clear; lia); exact L1].
        unfold vfindc_step. rewrite (rep_size _ _ _ _ Hb). replace (bucket_capacity bs <? blen es) with false by (clear - Hc; lia).
        cbv zeta. rewrite (lower_bound_rep _ _ _ _ _ Hb (proj1 Hes)), A, (rep_spill _ _ _ _ Hb).
        replace (sp =? 0) with false by (clear - H8; lia).
        rewrite (run_bind_eq _ _ _ _ _ Hb2). reflexivity.
      * replace (c + 1 + c2 + 1) with ((c + 1) + (c2 + 1)) by (clear; lia).
        eapply cloops_more; [| |exact L2].
        -- unfold fetch_step. rewrite (rep_size _ _ _ _ Hb'), (lower_bound_rep _ _ _ _ _ Hb' (proj1 Hes)).
           rewrite (run_bind_eq _ _ _ _ _ B), (rep_spill _ _ _ _ Hb'). replace (sp =? 0) with false by (clear - H8; lia).
           rewrite (run_bind_eq _ _ _ _ _ Hb3). reflexivity.
        -- unfold fetch_step. rewrite (rep_size _ _ _ _ Hb'), (lower_bound_rep _ _ _ _ _ Hb' (proj1 Hes)).
           rewrite (nreads_bind_eq _ _ _ _ _ B), C, (rep_spill _ _ _ _ Hb'). replace (sp =? 0) with false by (clear - H8; lia).
           rewrite (nreads_bind_eq _ _ _ _ _ Hb3), nreads_bk_read. cbn [nreads]. clear; lia.
Qed.

Lemma find_cost b b' es sp ces f :
  bk_rep bs b es sp -> bk_rep bs b' es sp -> ents_ok es -> chain bs P sp ces -> Forall (linked H salt ks P) (es ++ ces) ->
  (exists en, In en (es ++ ces) /\ en_hash en = h /\ en_off en = o) ->
  exists c, run (vfindc e bs h o b f) w = (w, Ok (f + c)) /\ nreads (fetch_bucket e kh h k b') w' = c + 1.
Proof using All.
  intros Hb Hb' Hes Hch Hl Hex.
  destruct (find_lock sp ces Hch b b' es f Hb Hb' Hes Hl Hex) as (n & c & Hn & L1 & L2).
  apply chain_lt in Hch. exists c. split.
  - eapply loop_run; [exact L1|]. clear - Hch Hn. lia.
  - eapply cloops_loop; [exact L2|]. clear - Hch Hn. lia.
Qed.
End Find.
