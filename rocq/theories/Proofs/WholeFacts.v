(** A flush writes whole records to the data file: every single write to it is a
    sequence of complete records. *)
From Verif Require Import Model.Bytes Model.Err Model.Field Model.Format Model.IO
  Model.BulkIO Model.Bucket Model.Pool Model.Recover Model.Store Model.BucketMem SpecFormat SpecVisit
  Proofs.BytesFacts Proofs.FieldFacts Proofs.IOFacts Proofs.BucketFacts Proofs.SafeFacts Proofs.MemFacts
  Proofs.FormatFacts Proofs.VisitFacts.
Transparent loop.

(** What a read that succeeds answers has the wanted length. *)
Definition sane (o : io) (r : rsp) : Prop :=
  match o, r with IoRead _ _ len, ROk _ d => blen d = len | _, _ => True end.

Lemma sane_exec o w : sane o (snd (exec o w)).
Proof.
  destruct o as [f|f|f|f|f off len|f ap off d|f|f n]; cbn [sane]; try exact I; cbn [exec].
  destruct (wget w f) as [c|]; [|exact I]. destruct (N.eqb_spec len 0) as [->|Hn]; cbn [orb].
  - cbn [snd]. unfold bsub. rewrite blen_btake. lia.
  - destruct (N.leb_spec (off + len) (blen c)) as [Hl|Hl]; cbn [snd]; [|exact I]. apply blen_bsub. lia.
Qed.

(** Programs all of whose operations satisfy [P] and whose result satisfies [R], with
    sane answers. *)
Inductive sops (P : io -> Prop) {A} (R : A -> Prop) : prog A -> Prop :=
| so_ret a : R a -> sops P R (Ret a)
| so_do o k : P o -> (forall r, sane o r -> sops P R (k r)) -> sops P R (Do o k).

Lemma so_bind P {A B} (R : A -> Prop) (R' : B -> Prop) (p : prog A) (f : A -> prog B) :
  sops P R p -> (forall a, R a -> sops P R' (f a)) -> sops P R' (bind p f).
Proof. intros Hp Hf. induction Hp; simpl; [apply Hf; auto|constructor; auto]. Qed.
Lemma so_ebind P {A B} (R : A -> Prop) (R' : B -> Prop) (p : prog (res A)) (f : A -> prog (res B)) :
  sops P (okres R) p -> (forall a, R a -> sops P (okres R') (f a)) -> sops P (okres R') (ebind p f).
Proof. intros Hp Hf. eapply so_bind; eauto. intros [a|e] Ha; simpl in *; auto. constructor. exact I. Qed.
Lemma so_unit (P : io -> Prop) o : P o -> sops P (okres anyres) (do_unit o).
Proof. intros. constructor; auto. intros [er|n d] _; constructor; exact I. Qed.
Lemma so_num (P : io -> Prop) o : P o -> sops P (okres anyres) (do_num o).
Proof. intros. constructor; auto. intros [er|n d] _; constructor; exact I. Qed.
Lemma so_read (P : io -> Prop) f off len : P (IoRead f off len) ->
  sops P (okres (fun d => blen d = len)) (p_read f off len).
Proof. intros. constructor; auto. intros [er|n d] Hr; constructor; [exact I|exact Hr]. Qed.
Lemma so_pret P {A} (R : A -> Prop) (a : A) : R a -> sops P (okres R) (pret a).
Proof. intros. constructor. auto. Qed.
Lemma so_pfail P {A} (R : A -> Prop) er : sops P (okres R) (@pfail A er).
Proof. intros. constructor. exact I. Qed.
Lemma so_lift P {A} (R : A -> Prop) (r : res A) : okres R r -> sops P (okres R) (plift r).
Proof. intros. constructor. auto. Qed.
Lemma so_weaken (P P' : io -> Prop) {A} (R R' : A -> Prop) (p : prog A) :
  sops P R p -> (forall o, P o -> P' o) -> (forall a, R a -> R' a) -> sops P' R' p.
Proof. intros Hp HP HR. induction Hp; constructor; auto. Qed.

Lemma so_iterp P {St T} (I : St -> Prop) (R : T -> Prop) (step : St -> prog (St + T)) (n : positive) :
  let R' := fun r => match r with inl s => I s | inr x => R x end in
  (forall s, I s -> sops P R' (step s)) -> forall s, I s -> sops P R' (iterp n step s).
Proof.
  intros R' Hs. induction n as [q IH|q IH|]; intros s Hi; simpl; auto.
  - eapply so_bind; eauto. intros [s'|x] Hx; [|constructor; auto].
    eapply so_bind; eauto. intros [s2|x] Hx2; [auto|constructor; auto].
  - eapply so_bind; eauto. intros [s'|x] Hx; [auto|constructor; auto].
Qed.
Lemma so_loop P {St T} (I : St -> Prop) (R : T -> Prop) (step : St -> prog (St + res T)) s :
  (forall s, I s -> sops P (fun r => match r with inl s => I s | inr x => okres R x end) (step s)) -> I s ->
  sops P (okres R) (loop step s).
Proof.
  intros Hs Hi. unfold loop. eapply so_bind; [apply (so_iterp P I (okres R)); [exact Hs|exact Hi]|].
  intros [s'|x] Hx; constructor; [exact Logic.I|exact Hx].
Qed.
Opaque loop.

Section Whole.
Variables (e : env) (ks : N) (kh : key_header).
Notation bs := (kh_block_size kh).
Hypothesis (Hcap : 1 <= bucket_capacity bs) (Hbs : bs <= 65535).

(** Complete records. *)
Definition records (d : bytes) : Prop := exists l, Forall (record_ok ks) l /\ d = images l.

Lemma records_nil : records [].
Proof. exists []. split; [constructor|reflexivity]. Qed.
Lemma records_app a b : records a -> records b -> records (a ++ b).
Proof.
  intros (l & Hl & ->) (m & Hm & ->). exists (l ++ m). split; [apply Forall_app; auto|].
  unfold images. rewrite flat_map_app. reflexivity.
Qed.
Lemma records_one r : record_ok ks r -> records (image r).
Proof. intros Hr. exists [r]. split; [repeat constructor; exact Hr|]. unfold images. cbn [flat_map]. symmetry. apply app_nil_r. Qed.

(** Operations that leave the data file alone except for appending complete
    records. *)
Definition whole_op (o : io) : Prop :=
  match o with
  | IoWrite FDat ap _ d => ap = true /\ records d
  | IoTrunc FDat _ | IoCreate FDat | IoErase FDat => False
  | _ => True
  end.
Notation P := whole_op.

Definition wwhole (w : bwriter) : Prop :=
  bw_file w = FDat /\ bw_append w = true /\ records (bw_buf w).

Lemma whole_bw_flush w : wwhole w -> sops P (okres wwhole) (bw_flush w).
Proof.
  intros (Hf & Ha & Hr). unfold bw_flush. destruct (blen (bw_buf w) =? 0); [apply so_pret; repeat split; auto|].
  apply (so_ebind P anyres).
  - apply so_unit. rewrite Hf, Ha. split; auto.
  - intros _ _. apply so_pret. repeat split; auto. apply records_nil.
Qed.

Lemma whole_bw_put w d : wwhole w -> records d -> sops P (okres wwhole) (bw_put w d).
Proof.
  intros Hw Hd. unfold bw_put. apply (so_ebind P wwhole).
  - destruct (bw_cap w <? blen (bw_buf w) + blen d); [apply whole_bw_flush; auto|apply so_pret; auto].
  - intros w1 (Hf & Ha & Hr). apply so_pret. repeat split; auto. cbn [bw_buf]. apply records_app; auto.
Qed.

Notation bfit := (bfit bs).
Notation cfit := (cfit bs).

Lemma whole_bk_read p g off : blen p = bs -> sops P (okres bfit) (bk_read p g off).
Proof using All.
  intros Hp. unfold bk_read. cbv zeta. rewrite Hp. eapply so_ebind; [apply so_read; exact I|]. intros d Hd.
  assert (B : blen (bwrite 0 d p) = bs) by (apply (blob_fit e bs Hcap Hbs); assumption).
  destruct (N.ltb_spec (bucket_capacity bs) (bk_size (bk_of_blob (bwrite 0 d p)))) as [Hl|Hl]; [apply so_pfail|].
  apply so_pret. split; [exact B|]. split; [exact Hl|reflexivity].
Qed.

Lemma spill_record b : bfit b -> records (wr48 0 ++ wr16 (bk_actual b) ++ bk_compact b).
Proof using All.
  intros Hb. pose proof (actual_in e bs Hcap Hbs b Hb) as Ha. destruct Hb as (H1 & _).
  assert (L : blen (bk_compact b) = bk_actual b) by (unfold bk_compact; rewrite blen_btake; unfold bk_bs in *; lia).
  rewrite wr48_be, wr16_be, <- L. apply (records_one (Spill (bk_compact b))). cbn [record_ok].
  change (2 ^ 16) with 65536. lia.
Qed.

Definition pairfit (x : bucket * bwriter) : Prop := bfit (fst x) /\ bk_size (fst x) < bucket_capacity bs /\ wwhole (snd x).

Lemma whole_maybe_spill b w : bfit b -> wwhole w -> sops P (okres pairfit) (maybe_spill b w).
Proof using All.
  intros Hb Hw. unfold maybe_spill. cbv zeta. destruct (bk_full b) eqn:F.
  - apply (so_ebind P wwhole); [apply whole_bw_put; [exact Hw|apply spill_record; exact Hb]|]. intros w1 H1.
    destruct (_ <? _); [apply so_pfail|]. apply so_pret. pose proof Hb as (E & _). rewrite E.
    split; [|split; [cbn; lia|exact H1]]. cbn [fst]. apply (set_spill_ok e bs Hcap Hbs). apply (empty_fit e bs Hcap Hbs).
  - apply so_pret. split; [exact Hb|]. split; [|exact Hw]. apply (full_false e bs Hcap Hbs); auto.
Qed.

Definition triple (x : bucket * bucket * bwriter) : Prop :=
  bfit (fst (fst x)) /\ bfit (snd (fst x)) /\ wwhole (snd x).

Lemma whole_split_spill n2 B M tmp fuel : forall i b1 b2 w, bfit b1 -> bfit b2 -> wwhole w ->
  sops P (okres triple) (split_spill fuel n2 B M tmp i b1 b2 w).
Proof using All.
  induction fuel as [|k IH]; intros i b1 b2 w H1 H2 Hw; cbn [split_spill]; [apply so_pret; repeat split; auto; apply H1 || apply H2 || apply Hw|].
  cbv zeta. set (en := bk_at tmp i). destruct (_ =? n2).
  - eapply so_ebind; [apply (whole_maybe_spill b2 w H2 Hw)|]. intros [b w1] (X1 & X2 & X3). cbn [fst snd] in *.
    eapply (so_ebind P bfit).
    + apply so_lift. destruct (insert_ok e bs Hcap Hbs b (en_off en) (en_size en) (en_hash en) X1 X2) as [_ Y].
      destruct (bk_insert b _ _ _); [apply Y|exact I].
    + intros b' Hb'. apply IH; auto.
  - eapply so_ebind; [apply (whole_maybe_spill b1 w H1 Hw)|]. intros [b w1] (X1 & X2 & X3). cbn [fst snd] in *.
    eapply (so_ebind P bfit).
    + apply so_lift. destruct (insert_ok e bs Hcap Hbs b (en_off en) (en_size en) (en_hash en) X1 X2) as [_ Y].
      destruct (bk_insert b _ _ _); [apply Y|exact I].
    + intros b' Hb'. apply IH; auto.
Qed.

Lemma whole_split b1 n2 B M w : bfit b1 -> wwhole w ->
  sops P (okres triple) (Store.split e kh b1 (bk_empty bs) n2 B M w).
Proof using All.
  intros H1 Hw. pose proof (empty_fit e bs Hcap Hbs) as H0. pose proof H1 as (_ & Hsz & _).
  unfold Store.split. destruct (bk_size b1 =? 0); [apply so_pret; split; [exact H1|split; [exact H0|exact Hw]]|].
  apply (so_ebind P (fun x => bfit (fst x) /\ bfit (snd x))).
  { apply so_lift. destruct (split_own_ok e bs Hcap Hbs kh eq_refl n2 B M (N.to_nat (bk_size b1)) b1 (bk_empty bs) 0 H1 H0) as [_ X];
      [lia|cbn [bk_empty bk_size]; lia|]. destruct (split_own _ _ _ _ _ _ _); [exact X|exact I]. }
  intros [x1 x2] [X1 X2]. cbn [fst snd] in *. cbv beta iota zeta.
  destruct (bk_spill x1 =? 0); [apply so_pret; split; [exact X1|split; [exact X2|exact Hw]]|].
  apply (so_loop P (fun st => let '(_, b1, b2, w) := st in bfit b1 /\ bfit b2 /\ wwhole w)).
  - clear - Hcap Hbs. intros [[[spill c1] c2] w1] (H1 & H2 & H3). unfold split_step.
    eapply (so_bind P (okres (fun x => let '(_, b1, b2, w) := x in bfit b1 /\ bfit b2 /\ wwhole w))).
    + apply (so_ebind P wwhole).
      { destruct (_ <? _); [apply whole_bw_flush; auto|apply so_pret; auto]. }
      intros w2 Hw2. eapply so_ebind; [apply whole_bk_read; apply blen_fresh|]. intros tmp Ht.
      eapply so_ebind; [apply whole_split_spill; eauto|]. intros [[z1 z2] w3] (Z1 & Z2 & Z3). apply so_pret. auto.
    + intros [[[[s' z1] z2] w3]|er] H4; [|constructor; exact I]. cbn [okres] in H4.
      destruct (s' =? 0); constructor; [|exact H4]. exact H4.
  - split; [apply (set_spill_ok e bs Hcap Hbs); exact X1|]. split; [exact X2|exact Hw].
Qed.

Lemma whole_load n c0 c1 : cfit c0 -> cfit c1 ->
  sops P (okres (fun x => bfit (fst (fst x)) /\ cfit (snd (fst x)) /\ cfit (snd x))) (load e kh n c0 c1).
Proof using All.
  intros H0 H1. unfold load. destruct (cache_find c1 n) as [p|] eqn:E1.
  - apply so_pret. cbn [fst snd]. split; [|auto]. apply (pfit_bucket e bs Hcap Hbs). eapply cfit_find; eauto.
  - destruct (cache_find c0 n) as [p|] eqn:E0.
    + pose proof (cfit_find e bs Hcap Hbs c0 n p H0 E0) as Hp. cbv zeta.
      destruct (cache_blob_ok e bs Hcap Hbs _ (pfit_bucket e bs Hcap Hbs p Hp)) as [_ Q].
      apply so_pret. cbn [fst snd]. split; [apply (pfit_bucket e bs Hcap Hbs); exact Q|]. split; [exact H0|].
      apply (cfit_set e bs Hcap Hbs); assumption.
    + eapply so_ebind; [apply whole_bk_read; apply blen_fresh|]. intros b Hb. cbv zeta.
      destruct (cache_blob_ok e bs Hcap Hbs b Hb) as [_ Q]. apply so_pret. cbn [fst snd].
      split; [apply (pfit_bucket e bs Hcap Hbs); exact Q|]. split; apply (cfit_set e bs Hcap Hbs); assumption.
Qed.

Definition cswhole (st : cstate) : Prop := cfit (cs_c0 st) /\ cfit (cs_c1 st) /\ wwhole (cs_w st).

Lemma whole_commit_insert th xo st : cswhole st -> sops P (okres cswhole) (commit_insert e kh th xo st).
Proof using All.
  intros (S0 & S1 & S2). destruct xo as [x off]. unfold commit_insert. apply (so_ebind P cswhole).
  - unfold commit_split. cbv zeta. destruct (_ <=? _); [|apply so_pret; repeat split; auto; apply S2].
    eapply so_ebind; [apply whole_load; assumption|]. intros [[b1 c0] c1] (B & C0 & C1). cbn [fst snd] in *.
    eapply so_ebind; [apply whole_split; assumption|]. intros [[d1 d2] w] (D1 & D2 & D3). cbn [fst snd] in *.
    apply so_pret. split; [exact C0|]. split; [|exact D3]. cbn [cs_c1].
    apply (cfit_set e bs Hcap Hbs); [apply (cfit_set e bs Hcap Hbs); [exact C1|]|]; apply (bfit_blob e bs Hcap Hbs); assumption.
  - intros st1 (T0 & T1 & T2). cbv zeta.
    eapply so_ebind; [apply whole_load; assumption|]. intros [[b c0] c1] (B & C0 & C1). cbn [fst snd] in *.
    eapply so_ebind; [apply whole_maybe_spill; assumption|]. intros [b' w1] (X1 & X2 & X3). cbn [fst snd] in *.
    eapply (so_ebind P bfit).
    + apply so_lift. destruct (insert_ok e bs Hcap Hbs b' off (blen (pe_data x)) (pe_hash x) X1 X2) as [_ Y].
      destruct (bk_insert b' _ _ _); [apply Y|exact I].
    + intros b2 Hb2. apply so_pret. split; [exact C0|]. split; [|exact X3]. cbn [cs_c1].
      apply (cfit_set e bs Hcap Hbs); [exact C1|apply (bfit_blob e bs Hcap Hbs); exact Hb2].
Qed.

Lemma whole_commit_inserts th l : forall st, cswhole st -> sops P (okres cswhole) (commit_inserts e kh th l st).
Proof using All.
  induction l as [|x l IH]; intros st Hw; cbn [commit_inserts]; [apply so_pret; auto|].
  eapply so_ebind; [apply whole_commit_insert; auto|]. auto.
Qed.

Definition elem_ok (x : pelem) : Prop := blen (pe_key x) = ks /\ 0 < blen (pe_data x) < 4294967296.

Lemma whole_commit_records l : Forall elem_ok l -> forall w, wwhole w ->
  sops P (okres (fun x => wwhole (snd x))) (commit_records l w).
Proof.
  induction 1 as [|x l (Hk & Hv) _ IH]; intros w Hw; cbn [commit_records]; [apply so_pret; auto|]. cbv zeta.
  eapply so_ebind; [apply whole_bw_put; [exact Hw|]|].
  - rewrite wr48_be. apply (records_one (Value (pe_key x) (pe_data x))). split; [exact Hk|].
    change (2 ^ 32) with 4294967296. exact Hv.
  - intros w1 H1. eapply so_ebind; [apply IH; auto|]. intros [r w2] H2. apply so_pret; auto.
Qed.

Lemma whole_commit_data th fr B M l : Forall elem_ok l -> sops P (okres anyres) (commit_data e kh th fr B M l).
Proof using All.
  intros Hl. unfold commit_data. eapply (so_ebind P anyres); [apply so_num; exact I|]. intros size _. cbv zeta.
  eapply so_ebind; [apply whole_commit_records; [exact Hl|repeat split; apply records_nil]|].
  intros [l' w] Hw. cbn [snd] in Hw. cbv beta iota.
  eapply so_ebind; [apply whole_commit_inserts; split; [constructor|split; [constructor|exact Hw]]|]. intros st (S0 & S1 & S2).
  eapply so_ebind; [apply whole_bw_flush; exact S2|]. intros w' _. apply so_pret. exact I.
Qed.

(** The log. *)
Lemma log_bw_flush w : bw_file w = FLog -> sops P (okres (fun w => bw_file w = FLog)) (bw_flush w).
Proof.
  intros Hf. unfold bw_flush. destruct (blen (bw_buf w) =? 0); [apply so_pret; auto|].
  apply (so_ebind P anyres); [apply so_unit; rewrite Hf; exact I|]. intros _ _. apply so_pret. exact Hf.
Qed.
Lemma log_bw_put w d : bw_file w = FLog -> sops P (okres (fun w => bw_file w = FLog)) (bw_put w d).
Proof.
  intros Hf. unfold bw_put. apply (so_ebind P (fun w => bw_file w = FLog)).
  - destruct (_ <? _); [apply log_bw_flush; auto|apply so_pret; auto].
  - intros w1 H1. apply so_pret. exact H1.
Qed.
Lemma log_commit_log_records c : forall w, bw_file w = FLog ->
  sops P (okres (fun w => bw_file w = FLog)) (commit_log_records c w).
Proof.
  induction c as [|x c IH]; intros w Hw; cbn [commit_log_records]; [apply so_pret; auto|].
  eapply so_ebind; [apply log_bw_put; auto|]. auto.
Qed.
Lemma whole_commit_key k : forall c, sops P (okres anyres) (commit_key k c).
Proof.
  induction c as [|[n p] c IH]; cbn [commit_key]; [apply so_pret; exact I|].
  eapply (so_ebind P anyres); [apply so_unit; exact I|]. intros _ _. exact IH.
Qed.
End Whole.

Lemma whole_flush e s ks :
  1 <= bucket_capacity (kh_block_size (st_kh s)) -> kh_block_size (st_kh s) <= 65535 ->
  Forall (elem_ok ks) (pl_map (st_p1 s)) -> sops (whole_op ks) anyres (store_flush e s).
Proof.
  intros Hc Hb Hl. unfold store_flush. destruct (pool_is_empty _); [constructor; exact I|].
  destruct (st_ec s); [constructor; exact I|].
  eapply (so_bind _ (okres anyres)); [|intros [a|er] _; constructor; exact I].
  unfold commit. cbv zeta. apply (so_ebind _ anyres).
  { unfold commit_begin. apply (so_ebind _ anyres); [apply so_num; exact I|]. intros kfs _.
    apply (so_ebind _ anyres); [apply so_num; exact I|]. intros dfs _.
    apply (so_ebind _ anyres); [apply so_unit; exact I|]. intros _ _. apply so_unit; exact I. }
  intros _ _. apply (so_ebind _ anyres); [apply whole_commit_data; assumption|]. intros st _.
  apply (so_ebind _ anyres).
  { unfold commit_log. apply (so_ebind _ anyres); [apply so_num; exact I|]. intros size _. cbv zeta.
    eapply so_ebind; [apply log_commit_log_records; reflexivity|]. intros w Hw.
    eapply (so_ebind _ (fun w => bw_file w = FLog)); [apply log_bw_flush; exact Hw|]. intros _ _. apply so_unit; exact I. }
  intros _ _. apply (so_ebind _ anyres); [apply whole_commit_key|]. intros _ _.
  apply (so_ebind _ anyres); [|intros _ _; apply so_pret; exact I].
  unfold commit_end. apply (so_ebind _ anyres); [apply so_unit; exact I|]. intros _ _.
  apply (so_ebind _ anyres); [apply so_unit; exact I|]. intros _ _.
  apply (so_ebind _ anyres); [apply so_unit; exact I|]. intros _ _. apply so_unit; exact I.
Qed.
