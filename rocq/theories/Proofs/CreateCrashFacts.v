(** A machine stop during create(). *)
From Verif Require Import Model.Bytes Model.Err Model.Field Model.Format Model.IO
  Model.BulkIO Model.Bucket Model.Pool Model.Recover Model.Create Model.Store Spec Model.History Model.Crash
  Model.Events Model.CreateCrash SpecFormat SpecHeader SpecCreate
  Proofs.BytesFacts Proofs.FieldFacts Proofs.IOFacts Proofs.PoolFacts Proofs.BucketFacts
  Proofs.BulkFacts Proofs.HashFacts Proofs.Table Proofs.Lookup Proofs.SplitFacts
  Proofs.CommitFacts Proofs.CommitInv Proofs.CommitRun Proofs.HeaderFacts Proofs.StoreInv
  Proofs.OpenFacts Proofs.HistoryFacts Proofs.LifeFacts Proofs.SafeFacts Proofs.CommitOps Proofs.FailFacts
  Proofs.FormatFacts Proofs.MapFacts Proofs.RefuseFacts Proofs.CrashFacts Proofs.EventFacts Proofs.CreateFacts
  Proofs.Witness Proofs.CrashTheorems Proofs.RekeyTheorems.
Opaque loop.

Section Parts.
Variables DD KK : bytes.

(** Every file is absent or a beginning of what it is going to be. *)
Definition part (f : fname) (c : option bytes) : Prop :=
  match c with
  | None => True
  | Some x => match f with FDat => pref x DD | FKey => pref x KK | FLog => x = [] end
  end.
Definition parts (w : world) : Prop := forall f, part f (wget w f).
Definition sparts (S : surv) : Prop := forall f c, S f c -> part f c.

Definition op_ok (o : io) (w : world) : Prop :=
  match o with
  | IoWrite f ap off d =>
    match wget w f with
    | Some x => if ap && negb (off =? blen x) then True else off = blen x /\ part f (Some (x ++ d))
    | None => True
    end
  | IoTrunc f n => match wget w f with Some x => part f (Some (btrunc n x)) | None => True end
  | _ => True
  end.

Lemma part_nil f : part f (Some []).
Proof. destruct f; cbn [part]; auto; eexists; reflexivity. Qed.
Lemma part_app f x d n : part f (Some (x ++ d)) -> part f (Some (x ++ btake n d)).
Proof.
  destruct f; cbn [part]; intros H.
  1,2: eapply pref_trans; [|exact H]; exists (bdrop n d); rewrite <- app_assoc, btake_bdrop; reflexivity.
  apply app_eq_nil in H as [-> ->]. cbn [app]. apply btake_nil.
Qed.

Lemma parts_wset w f c : parts w -> part f c -> parts (wset w f c).
Proof.
  intros H Hc g. destruct f, g; try (rewrite wget_wset_same; exact Hc); try (rewrite wget_wset_other by discriminate; apply H).
Qed.
Lemma sparts_sset S f (P : option bytes -> Prop) : sparts S -> (forall c, P c -> part f c) -> sparts (sset S f P).
Proof.
  intros H Hc g c. unfold sset. destruct f, g; cbn [fname_eqb]; auto.
Qed.

Lemma exec_parts o w : op_ok o w -> parts w -> parts (fst (exec o w)).
Proof.
  intros Ho Hw. destruct o as [f|f|f|f|f off len|f ap off d|f|f len]; cbn [exec op_ok] in *;
    pose proof (Hw f) as Hf; destruct (wget w f) as [x|] eqn:Ew; cbn [fst]; auto.
  - apply parts_wset; [exact Hw|apply part_nil].
  - apply parts_wset; [exact Hw|exact I].
  - destruct ((len =? 0) || (off + len <=? blen x)); exact Hw.
  - destruct (ap && negb (off =? blen x)); cbn [fst]; auto. destruct Ho as [-> Ho].
    apply parts_wset; auto. rewrite bwrite_end by auto. exact Ho.
  - apply parts_wset; auto.
Qed.

Lemma failed_parts o w w' : op_ok o w -> parts w -> failed all_in_order o w w' -> parts w'.
Proof.
  intros Ho Hw. pose proof (exec_parts o w Ho Hw) as He.
  destruct o as [f|f|f|f|f off len|f ap off d|f|f len]; cbn [failed op_ok all_in_order] in *;
    try (intros ->; exact Hw); try (intros [-> | ->]; [exact Hw|exact He]).
  - pose proof (Hw f) as Hf. destruct (wget w f) as [x|] eqn:Ew; [|intros ->; exact Hw].
    destruct (ap && negb (off =? blen x)); [intros ->; exact Hw|]. destruct Ho as [-> Ho].
    intros (x' & -> & [-> |(n & ->)]); apply parts_wset; auto.
    rewrite bwrite_end by auto. apply part_app. exact Ho.
  - pose proof (Hw f) as Hf. destruct (wget w f) as [x|] eqn:Ew; [|intros ->; exact Hw].
    intros (x' & -> & [-> | ->]); apply parts_wset; auto.
Qed.

Lemma sexec_parts o w S : op_ok o w -> parts w -> sparts S -> sparts (sexec all_in_order o w S).
Proof.
  intros Ho Hw HS. destruct o as [f|f|f|f|f off len|f ap off d|f|f len]; cbn [sexec op_ok all_in_order] in *; auto;
    pose proof (Hw f) as Hf; destruct (wget w f) as [x|] eqn:Ew; auto.
  - apply sparts_sset; auto. intros c [Hc| ->]; [apply HS; exact Hc|apply part_nil].
  - apply sparts_sset; auto. intros c [Hc| ->]; [apply HS; exact Hc|exact I].
  - destruct (ap && negb (off =? blen x)); auto. destruct Ho as [-> Ho].
    apply sparts_sset; auto. intros c [Hc|(n & ->)]; [apply HS; exact Hc|].
    rewrite bwrite_end by auto. apply part_app. exact Ho.
  - apply sparts_sset; auto. intros c ->. exact Hf.
  - apply sparts_sset; auto. intros c [Hc| ->]; [apply HS; exact Hc|exact Ho].
Qed.
Lemma sfail_parts o w S : op_ok o w -> parts w -> sparts S -> sparts (sfail all_in_order o w S).
Proof. intros. destruct o; cbn [sfail]; auto; apply sexec_parts; auto. Qed.

(** Every operation the program may come to is fine; [R] holds of the result. *)
Fixpoint fine {A} (R : world -> A -> Prop) (p : prog A) (w : world) : Prop :=
  match p with
  | Ret a => R w a
  | Do o k => op_ok o w /\ fine R (k (snd (exec o w))) (fst (exec o w)) /\
      forall n w1, failed all_in_order o w w1 -> fine R (k (RErr (EIO n))) w1
  end.

Lemma fine_mono {A} (R R' : world -> A -> Prop) p : (forall w a, R w a -> R' w a) ->
  forall w, fine R p w -> fine R' p w.
Proof.
  intros HR. induction p as [a|o k IH]; intros w; cbn [fine]; [apply HR|].
  intros (H1 & H2 & H3). split; [exact H1|]. split; [apply IH; exact H2|]. intros n w1 Hf. apply IH. eapply H3; eauto.
Qed.
Lemma fine_bind {A B} (R : world -> B -> Prop) (p : prog A) (f : A -> prog B) : forall w,
  fine (fun w' a => fine R (f a) w') p w -> fine R (bind p f) w.
Proof.
  induction p as [a|o k IH]; intros w; cbn [fine bind]; auto.
  intros (H1 & H2 & H3). split; [exact H1|]. split; [apply IH; exact H2|]. intros n w1 Hf. apply IH. eapply H3; eauto.
Qed.

Lemma fine_steps {A} (p : prog A) w S p' w' S' R :
  fsteps all_in_order p w S p' w' S' -> fine R p w -> parts w -> sparts S ->
  fine R p' w' /\ parts w' /\ sparts S'.
Proof.
  induction 1 as [p w S|o k w S p' w' S' _ IH|o k w S n w1 p' w' S' Hf _ IH]; intros Hp Hw HS; [auto| |];
    cbn [fine] in Hp; destruct Hp as (H1 & H2 & H3).
  - apply IH; [exact H2|apply exec_parts; auto|apply sexec_parts; auto].
  - apply IH; [eapply H3; eauto|eapply failed_parts; eauto|apply sfail_parts; auto].
Qed.

Lemma fine_crash {A} (p : prog A) w S R w' :
  fcrash all_in_order p w S w' -> fine R p w -> parts w -> sparts S -> parts w'.
Proof.
  intros (p1 & w1 & S1 & Hs & Hd) Hp Hw HS f. destruct (fine_steps _ _ _ _ _ _ _ Hs Hp Hw HS) as (_ & _ & H).
  apply H, Hd.
Qed.

Lemma sparts_durable w : parts w -> sparts (durable w).
Proof. intros H f c ->. apply H. Qed.

(** ** Programs for which it is enough that the files are parts *)
Inductive okp {A} (R : A -> Prop) : prog A -> Prop :=
| okp_ret a : R a -> okp R (Ret a)
| okp_do o k : (forall w, parts w -> op_ok o w) -> (forall w, parts w -> okp R (k (snd (exec o w)))) ->
    (forall n, okp R (k (RErr (EIO n)))) -> okp R (Do o k).

Lemma okp_fine {A} (R : A -> Prop) p : okp R p -> forall w, parts w -> fine (fun _ => R) p w.
Proof.
  induction 1 as [a Ha|o k H1 H2 IH2 H3 IH3]; intros w Hw; cbn [fine]; auto.
  split; [apply H1; auto|]. split; [apply IH2; auto; apply exec_parts; auto|].
  intros n w1 Hf. apply IH3. eapply failed_parts; eauto.
Qed.
Lemma okp_bind {A B} (R : A -> Prop) (R' : B -> Prop) p f : okp R p -> (forall a, R a -> okp R' (f a)) ->
  okp R' (bind p f).
Proof.
  induction 1 as [a Ha|o k H1 H2 IH2 H3 IH3]; intros Hf; cbn [bind]; auto.
  constructor; auto.
Qed.
Definition any {A} (a : A) : Prop := True.
Lemma okp_ebind {A B} (p : prog (res A)) (f : A -> prog (res B)) : okp any p -> (forall a, okp any (f a)) ->
  okp any (ebind p f).
Proof.
  intros Hp Hf. unfold ebind. eapply okp_bind; [exact Hp|]. intros [a|er] _; [apply Hf|constructor; exact I].
Qed.
Lemma okp_unit o : (forall w, parts w -> op_ok o w) -> okp any (do_unit o).
Proof. intros H. constructor; auto; intros; [destruct (snd (exec o w))|]; constructor; exact I. Qed.
Lemma okp_num o : (forall w, parts w -> op_ok o w) -> okp any (do_num o).
Proof. intros H. constructor; auto; intros; [destruct (snd (exec o w))|]; constructor; exact I. Qed.
Lemma okp_data o : (forall w, parts w -> op_ok o w) -> okp any (do_data o).
Proof. intros H. constructor; auto; intros; [destruct (snd (exec o w))|]; constructor; exact I. Qed.
Lemma okp_any {A} (a : A) : okp any (Ret a). Proof. constructor. exact I. Qed.

Lemma okp_clear_log : okp any recover_clear_log.
Proof.
  unfold recover_clear_log, p_trunc, p_sync, p_erase.
  apply okp_ebind; [|intros _; apply okp_ebind; [|intros _]]; apply okp_unit; intros w Hw; cbn [op_ok]; auto.
  pose proof (Hw FLog) as HL. destruct (wget w FLog) as [x|]; auto. cbn [part] in *. subst x. reflexivity.
Qed.

Lemma okp_log_header : okp (fun r => match r with Ok _ => False | Er _ => True end) read_log_header.
Proof.
  unfold read_log_header, p_read, do_data, ebind. cbn [bind]. constructor; [reflexivity| |intros; constructor; exact I].
  intros w Hw. pose proof (Hw FLog) as HL. cbn [exec]. destruct (wget w FLog) as [x|]; cbn [snd bind]; [|constructor; exact I].
  cbn [part] in HL. subst x. constructor. exact I.
Qed.

Lemma okp_recover e : okp any (recover e).
Proof.
  unfold recover, p_open, p_size, p_erase, plift, pfail, pret.
  apply okp_ebind; [apply okp_unit; reflexivity|intros _].
  apply okp_ebind; [apply okp_num; reflexivity|intros dsz].
  apply okp_ebind; [unfold read_dat_header; apply okp_ebind; [apply okp_data; reflexivity|intros; apply okp_any]|intros dh].
  apply okp_ebind; [apply okp_any|intros _].
  apply okp_ebind; [apply okp_unit; reflexivity|intros _].
  apply okp_ebind; [apply okp_num; reflexivity|intros ksz].
  destruct (ksz <=? key_hdr_size).
  { apply okp_ebind; [|intros _; apply okp_ebind; [apply okp_unit; reflexivity|intros _; apply okp_any]].
    unfold erase_file. eapply okp_bind; [apply okp_unit; reflexivity|]. intros [|er] _; [apply okp_any|].
    destruct er; apply okp_any. }
  eapply okp_bind; [apply okp_unit; reflexivity|]. intros [[]|er] _; [|destruct er; apply okp_any].
  apply okp_ebind; [apply okp_num; reflexivity|intros lsz].
  eapply okp_bind; [apply okp_log_header|]. intros [lh|er]; [contradiction|intros _].
  destruct er; try apply okp_any. apply okp_clear_log.
Qed.

Lemma okp_open e : okp any (store_open e).
Proof.
  unfold store_open, p_open, p_create, plift, pfail, pret.
  apply okp_ebind; [apply okp_recover|intros _].
  apply okp_ebind; [apply okp_unit; reflexivity|intros _].
  apply okp_ebind; [apply okp_unit; reflexivity|intros _].
  apply okp_ebind; [apply okp_unit; reflexivity|intros _].
  apply okp_ebind; [unfold read_dat_header; apply okp_ebind; [apply okp_data; reflexivity|intros; apply okp_any]|intros dh].
  apply okp_ebind; [apply okp_any|intros _].
  apply okp_ebind; [unfold read_key_header; apply okp_ebind; [apply okp_data; reflexivity|intros b;
    apply okp_ebind; [apply okp_num; reflexivity|intros; apply okp_any]]|intros kh].
  apply okp_ebind; [apply okp_any|intros _].
  apply okp_ebind; [apply okp_any|intros _].
  cbv zeta. destruct (kh_buckets kh <? 1); apply okp_any.
Qed.

Lemma okp_fail a b c er : okp any (create_fail a b c er).
Proof.
  unfold create_fail, erase_quiet, p_erase.
  eapply okp_bind; [instantiate (1 := any); destruct a; [eapply okp_bind; [apply okp_unit; reflexivity|intros; apply okp_any]|apply okp_any]|intros _ _].
  eapply okp_bind; [instantiate (1 := any); destruct b; [eapply okp_bind; [apply okp_unit; reflexivity|intros; apply okp_any]|apply okp_any]|intros _ _].
  eapply okp_bind; [instantiate (1 := any); destruct c; [eapply okp_bind; [apply okp_unit; reflexivity|intros; apply okp_any]|apply okp_any]|intros _ _].
  apply okp_any.
Qed.

Lemma retried_parts e w w' : retried all_in_order e w w' -> parts w -> parts w'.
Proof.
  induction 1 as [|w w1 w' H _ IH|w w1 w' H _ IH]; intros Hw; auto; apply IH.
  - eapply fine_crash; [exact H|apply okp_fine; [apply okp_recover|exact Hw]|exact Hw|apply sparts_durable; exact Hw].
  - eapply fine_crash; [exact H|apply okp_fine; [apply okp_open|exact Hw]|exact Hw|apply sparts_durable; exact Hw].
Qed.
End Parts.

Section Step.
Variables (DD KK : bytes).
Lemma fine_unit {B} (R : world -> B -> Prop) o (K : res unit -> prog B) w w' n d :
  exec o w = (w', ROk n d) -> op_ok DD KK o w -> parts DD KK w ->
  fine DD KK R (K (Ok tt)) w' ->
  (forall n w1, parts DD KK w1 -> fine DD KK R (K (Er (EIO n))) w1) ->
  fine DD KK R (bind (do_unit o) K) w.
Proof.
  intros He Ho Hw H1 H2. unfold do_unit. cbn [bind fine]. rewrite He. cbn [fst snd bind].
  split; [exact Ho|]. split; [exact H1|]. intros m w1 Hf. apply H2. eapply failed_parts; eauto.
Qed.
Lemma fine_eunit {B} (R : world -> res B -> Prop) o (f : unit -> prog (res B)) w w' n d :
  exec o w = (w', ROk n d) -> op_ok DD KK o w -> parts DD KK w ->
  fine DD KK R (f tt) w' ->
  (forall n w1, parts DD KK w1 -> R w1 (Er (EIO n))) ->
  fine DD KK R (ebind (do_unit o) f) w.
Proof. intros He Ho Hw H1 H2. unfold ebind. eapply fine_unit; eauto. Qed.
End Step.

Lemma exec_append f off d w x : wget w f = Some x -> off = blen x ->
  exec (IoWrite f true off d) w = (wset w f (Some (x ++ d)), ROk 0 []).
Proof. intros E ->. cbn [exec]. rewrite E, N.eqb_refl. cbn [andb negb]. rewrite bwrite_end by reflexivity. reflexivity. Qed.
Lemma append_ok DD KK f off d w x : wget w f = Some x -> off = blen x -> part DD KK f (Some (x ++ d)) ->
  op_ok DD KK (IoWrite f true off d) w.
Proof. intros E -> H. cbn [op_ok]. rewrite E, N.eqb_refl. cbn [andb negb]. auto. Qed.

Section New.
Variables (e : env) (a : create_args).
Hypothesis Ha : good_args a.
Notation p := (dbp_of a).
Notation DD := (db_hdr p).
Notation KB := (db_kb e p).
Notation BB := (enc_block (db_block_size p) [] 0).
Notation KK := (KB ++ BB).

Lemma new_world_eq : new_world e p = World (Some DD) (Some KK) (Some []).
Proof using. unfold new_world, kfile. cbn [flat_map]. unfold kblock. cbn [fst snd]. rewrite app_nil_r. reflexivity. Qed.

Lemma parts_no_files : parts DD KK no_files.
Proof using. intros []; exact I. Qed.

Lemma create_fine : fine DD KK (fun _ _ => True) (create e a) no_files.
Proof using Ha.
  destruct (good_args_ok a Ha) as (Hp & Hi & Hf & Haa).
  pose proof Hp as (H1 & H2 & H3 & H4 & H5 & H6 & H7 & H8 & H9 & _).
  assert (Hok : first_failed (arg_checks a) = None).
  { pose proof (create_ok e p _ no_files Hp Hi Hf eq_refl eq_refl eq_refl) as Hc. rewrite Haa in Hc.
    destruct (first_failed (arg_checks a)) as [er|] eqn:E; auto. apply (create_rejects e a no_files) in E.
    rewrite E in Hc. discriminate Hc. }
  rewrite create_accepted by exact Hok. unfold create_body, p_create.
  assert (F : forall b1 b2 b3 er w, parts DD KK w -> fine DD KK (fun _ _ => True) (create_fail b1 b2 b3 er) w).
  { intros b1 b2 b3 er w Hw. eapply fine_mono; [|apply okp_fine; [apply okp_fail|exact Hw]]. auto. }
  assert (P1 : parts DD KK (World (Some []) None None)) by (intros []; try exact I; apply part_nil).
  assert (P2 : parts DD KK (World (Some []) (Some []) None)) by (intros []; try exact I; apply part_nil).
  assert (P3 : parts DD KK (World (Some []) (Some []) (Some []))) by (intros []; apply part_nil).
  eapply fine_unit; [reflexivity|exact I|apply parts_no_files| |intros; apply F; assumption]. cbv beta iota.
  eapply fine_unit; [reflexivity|exact I|exact P1| |intros; apply F; assumption]. cbv beta iota.
  eapply fine_unit; [reflexivity|exact I|exact P2| |intros; apply F; assumption]. cbv beta iota.
  apply fine_bind. apply fine_mono with (R := fun w r => match r with Ok _ => True | Er _ => parts DD KK w end).
  { intros w [[]|er] H; [exact I|]. destruct er; try (apply F; exact H). exact I. }
  change (fst (exec (IoCreate FLog) (World (Some []) (Some []) None))) with (World (Some []) (Some []) (Some [])).
  unfold no_files. cbn [wset w_dat w_key w_log].
  assert (BS : ca_block_size a = db_block_size p) by (rewrite <- Haa at 1; reflexivity).
  unfold create_fill. rewrite Hf.
  assert (HD : enc_dat_header (create_dat_header a) = DD) by (rewrite <- Haa at 1; reflexivity).
  assert (HKB : enc_key_header_block (create_key_header e a (db_load_factor p)) = KB) by (rewrite <- Haa at 1; reflexivity).
  rewrite HD.
  set (w1 := World (Some DD) (Some []) (Some [])).
  set (w2 := World (Some DD) (Some KB) (Some [])).
  set (w3 := World (Some DD) (Some KK) (Some [])).
  assert (Q1 : parts DD KK w1) by (intros []; [apply pref_refl|apply part_nil|apply part_nil]).
  assert (Q2 : parts DD KK w2) by (intros []; [apply pref_refl|apply pref_app|apply part_nil]).
  assert (Q3 : parts DD KK w3) by (intros []; [apply pref_refl|apply pref_refl|apply part_nil]).
  eapply fine_eunit with (w' := w1); [exact (exec_append FDat 0 DD (World (Some []) (Some []) (Some [])) [] eq_refl eq_refl)|exact (append_ok DD KK FDat 0 DD (World (Some []) (Some []) (Some [])) [] eq_refl eq_refl (pref_refl DD))|exact P3| |intros; assumption].
  unfold write_key_header. cbn [create_key_header kh_block_size]. rewrite BS.
  pose proof (block_min _ H7) as Hm.
  replace (db_block_size p <? key_hdr_size) with false by (symmetry; apply N.ltb_ge; exact Hm).
  rewrite HKB.
  eapply fine_eunit with (w' := w2); [exact (exec_append FKey 0 KB w1 [] eq_refl eq_refl)|exact (append_ok DD KK FKey 0 KB w1 [] eq_refl eq_refl (pref_app KB BB))|exact Q1| |intros; assumption].
  unfold bk_write.
  assert (Hpad : bk_padded (bk_empty (db_block_size p)) = BB).
  { apply padded_rep. apply bk_empty_rep. unfold key_hdr_size in Hm. lia. }
  rewrite Hpad.
  assert (HL : blen KB = db_block_size p) by (apply p_kb; exact Hp).
  eapply fine_eunit with (w' := w3); [exact (exec_append FKey _ BB w2 KB eq_refl (eq_sym HL))|
    exact (append_ok DD KK FKey _ BB w2 KB eq_refl (eq_sym HL) (pref_refl KK))|exact Q2| |intros; assumption].
  eapply fine_eunit; [reflexivity|exact I|exact Q3| |intros; assumption]. cbv beta iota.
  eapply fine_eunit; [reflexivity|exact I|exact Q3| |intros; assumption]. cbv beta iota.
  unfold p_sync, do_unit. cbn [fine exec w3 wget w_log snd fst]. split; [exact I|]. split; [exact I|].
  intros n w1' ->. exact Q3.
Qed.
End New.

Section Opening.
Variables (e : env) (a : create_args).
Hypothesis Ha : good_args a.
Notation p := (dbp_of a).
Notation DD := (db_hdr p).
Notation KB := (db_kb e p).
Notation BB := (enc_block (db_block_size p) [] 0).
Notation KK := (KB ++ BB).

Lemma p_ok : dbp_ok p. Proof using Ha. apply (good_args_ok a Ha). Qed.
Lemma block_104 : 104 <= db_block_size p.
Proof using Ha.
  pose proof p_ok as (_ & _ & _ & _ & _ & _ & H7 & _). pose proof (block_min _ H7) as Hm. exact Hm.
Qed.
Lemma blen_KK : blen KK = 2 * db_block_size p.
Proof using Ha.
  pose proof block_104. rewrite blen_app, (p_kb e p p_ok). rewrite blen_enc_block; [lia|].
  change (bucket_size (blen (@nil entry))) with 8. lia.
Qed.

Lemma pref_all (x y : bytes) : pref x y -> blen y <= blen x -> x = y.
Proof using.
  intros (t & ->) Hl. rewrite blen_app in Hl. assert (t = []) as -> by (apply blen_0; lia). rewrite app_nil_r. reflexivity.
Qed.

(** The key header of a key file cut after its header but before its first bucket
    is complete. *)
Lemma short_buckets z : 104 < z -> z < 2 * db_block_size p -> buckets_of_size z (db_block_size p) = 0.
Proof using Ha.
  intros H1 H2. pose proof block_104. unfold buckets_of_size.
  destruct (N.ltb_spec 0 (db_block_size p)); [|lia]. destruct (N.ltb_spec (db_block_size p) z); [|reflexivity].
  apply N.div_small. lia.
Qed.

Lemma read_short_key w x : wget w FKey = Some x -> pref x KK -> 104 < blen x -> blen x < 2 * db_block_size p ->
  run read_key_header w = (w, Ok (db_kh e p 0)).
Proof using Ha.
  intros Hw (t & Ht) H1 H2. pose proof block_104. unfold read_key_header.
  erewrite run_ebind_ok by (apply run_read; [exact Hw|unfold key_hdr_size; lia]).
  erewrite run_ebind_ok by (apply run_size; exact Hw). unfold pret. cbn [run].
  assert (X : bsub 0 key_hdr_size x = enc_key_header (db_kh e p 0)).
  { transitivity (bsub 0 key_hdr_size KK).
    - rewrite Ht. symmetry. rewrite !bsub_0. apply btake_app_l. unfold key_hdr_size. lia.
    - unfold db_kb, enc_key_header_block. rewrite <- !app_assoc. apply bsub_take. apply blen_key_header. }
  rewrite X. rewrite dec_enc_key by (apply p_key_fits, p_ok).
  cbn [db_kh kh_block_size]. rewrite short_buckets by assumption. reflexivity.
Qed.

Lemma verify_short_key : verify_key (e_hasher e) (db_kh e p 0) = Er invalid_bucket_count.
Proof using Ha.
  unfold verify_key.
  cbn [db_kh kh_type kh_version kh_key_size kh_pepper kh_load_factor kh_capacity kh_buckets kh_salt].
  rewrite beq_refl, !N.eqb_refl. pose proof p_ok as (_ & _ & H3 & _ & _ & _ & H7 & H8 & _).
  replace (db_key_size p <? 1) with false by lia.
  replace (db_load_factor p <? 1) with false by lia.
  replace (bucket_capacity (db_block_size p) <? 1) with false by lia. reflexivity.
Qed.

Lemma open_parts w : parts DD KK w ->
  exists w' r, run (store_open e) w = (w', r) /\
  match r with
  | Er er => In er [ENoEnt; short_read; no_key_file; invalid_bucket_count]
  | Ok s => lived e a [] w' s
  end.
Proof using Ha.
  intros Hw. pose proof p_ok as Hp. pose proof block_104 as Hb. pose proof (p_hdr p) as HDD.
  destruct (wget w FDat) as [d|] eqn:Ed.
  2:{ exists w, (Er ENoEnt). split; [|left; reflexivity]. apply open_recover_er. unfold recover.
      apply run_ebind_er. apply run_open_none. exact Ed. }
  destruct (N.lt_ge_cases (blen d) dat_hdr_size) as [Sd|Sd].
  { exists w, (Er short_read). split; [|right; left; reflexivity]. apply open_recover_er. unfold recover.
    rewrite (run_ebind_ok _ _ _ _ _ (run_open _ _ _ Ed)), (run_ebind_ok _ _ _ _ _ (run_size _ _ _ Ed)).
    apply run_ebind_er. unfold read_dat_header. apply run_ebind_er.
    eapply run_read_short; [exact Ed|discriminate|exact Sd]. }
  pose proof (Hw FDat) as Pd. rewrite Ed in Pd. cbn [part] in Pd.
  assert (d = DD) as -> by (apply pref_all; [exact Pd|lia]). clear Pd Sd.
  assert (Ed' : wget w FDat = Some (DD ++ [])) by (rewrite app_nil_r; exact Ed).
  assert (HR : forall X, run (recover e) w = X <-> run (
    p_open FKey ;;;
    keyFileSize <- p_size FKey ;;
    if keyFileSize <=? key_hdr_size then
      erase_file FLog ;;; p_erase FKey ;;; pfail no_key_file
    else
    bind (p_open FLog) (fun a =>
    match a with
    | Er ENoEnt => pret tt
    | Er er => pfail er
    | Ok _ =>
      logFileSize <- p_size FLog ;;
      bind read_log_header (fun a =>
      match a with
      | Er short_read => recover_clear_log
      | Er er => pfail er
      | Ok lh =>
        plift (verify_log (e_hasher e) lh) ;;;
        (if lh_key_file_size lh =? 0 then pret tt
         else recover_replay e (db_dh p) lh (blen DD) logFileSize) ;;;
        recover_trunc_files lh ;;;
        recover_clear_log
      end)
    end)) w = X).
  { intros X. unfold recover.
    rewrite (run_ebind_ok _ _ _ _ _ (run_open _ _ _ Ed)), (run_ebind_ok _ _ _ _ _ (run_size _ _ _ Ed)),
      (run_ebind_ok _ _ _ _ _ (read_dh p Hp _ _ Ed')), verify_dat_ok by exact Hp.
    erewrite run_ebind_ok by reflexivity. reflexivity. }
  destruct (wget w FKey) as [k|] eqn:Ek.
  2:{ exists w, (Er ENoEnt). split; [|left; reflexivity]. apply open_recover_er. apply HR.
      apply run_ebind_er. apply run_open_none. exact Ek. }
  destruct (N.le_gt_cases (blen k) key_hdr_size) as [Sk|Sk].
  { assert (exists w', run (recover e) w = (w', Er no_key_file)) as (w' & Hr).
    { destruct (wget w FLog) as [l|] eqn:El; eexists; apply HR;
        rewrite (run_ebind_ok _ _ _ _ _ (run_open _ _ _ Ek)), (run_ebind_ok _ _ _ _ _ (run_size _ _ _ Ek));
        rewrite (proj2 (N.leb_le _ _) Sk).
      - unfold erase_file. rewrite (run_ebind_ok _ _ w (wset w FLog None) tt).
        2:{ rewrite (run_bind_eq _ _ _ _ _ (run_erase _ _ _ El)). reflexivity. }
        rewrite (run_ebind_ok _ _ _ _ _ (run_erase FKey (wset w FLog None) k ltac:(rewrite wget_wset_other by discriminate; exact Ek))).
        reflexivity.
      - unfold erase_file. rewrite (run_ebind_ok _ _ w w tt).
        2:{ unfold p_erase, do_unit. cbn [bind run exec]. rewrite El. reflexivity. }
        rewrite (run_ebind_ok _ _ _ _ _ (run_erase FKey _ k Ek)). reflexivity. }
    exists w', (Er no_key_file). split; [apply open_recover_er; exact Hr|right; right; left; reflexivity]. }
  pose proof (Hw FKey) as Pk. rewrite Ek in Pk. cbn [part] in Pk.
  pose proof (Hw FLog) as Pl.
  destruct (N.lt_ge_cases (blen k) (2 * db_block_size p)) as [Tk|Tk].
  - assert (exists w', run (recover e) w = (w', Ok tt) /\ wget w' FDat = Some (DD ++ []) /\ wget w' FKey = Some k /\
      wget w' FLog = None) as (w' & Hr & Wd & Wk & Wl).
    { destruct (wget w FLog) as [l|] eqn:El.
      - cbn [part] in Pl. subst l. exists (wset w FLog None). split; [apply HR|].
        + rewrite (run_ebind_ok _ _ _ _ _ (run_open _ _ _ Ek)), (run_ebind_ok _ _ _ _ _ (run_size _ _ _ Ek)).
          rewrite (proj2 (N.leb_gt _ _) Sk).
          rewrite (run_bind_eq _ _ _ _ _ (run_open _ _ _ El)), (run_ebind_ok _ _ _ _ _ (run_size _ _ _ El)).
          assert (R : run read_log_header w = (w, Er short_read)).
          { unfold read_log_header. apply run_ebind_er. eapply run_read_short; [exact El|discriminate|reflexivity]. }
          rewrite (run_bind_eq _ _ _ _ _ R). unfold recover_clear_log.
          rewrite (run_ebind_ok _ _ _ _ _ (run_trunc _ _ _ _ El)).
          erewrite run_ebind_ok by (eapply run_sync; apply wget_wset_same).
          erewrite run_erase by apply wget_wset_same. rewrite wset_wset. reflexivity.
        + split; [rewrite wget_wset_other by discriminate; exact Ed'|].
          split; [rewrite wget_wset_other by discriminate; exact Ek|]. apply wget_wset_same.
      - exists w. split; [apply HR|auto].
        rewrite (run_ebind_ok _ _ _ _ _ (run_open _ _ _ Ek)), (run_ebind_ok _ _ _ _ _ (run_size _ _ _ Ek)).
        rewrite (proj2 (N.leb_gt _ _) Sk). rewrite (run_bind_eq _ _ _ _ _ (run_open_none _ _ El)). reflexivity. }
    exists (wset w' FLog (Some [])), (Er invalid_bucket_count). split; [|right; right; right; left; reflexivity].
    unfold store_open. rewrite (run_ebind_ok _ _ _ _ _ Hr).
    rewrite (run_ebind_ok _ _ _ _ _ (run_open _ _ _ Wd)), (run_ebind_ok _ _ _ _ _ (run_open _ _ _ Wk)),
      (run_ebind_ok _ _ _ _ _ (run_create _ _ Wl)).
    rewrite (run_ebind_ok _ _ _ _ _ (read_dh p Hp (wset w' FLog (Some [])) [] ltac:(rewrite wget_wset_other by discriminate; exact Wd))).
    rewrite verify_dat_ok by exact Hp. erewrite run_ebind_ok by reflexivity.
    rewrite (run_ebind_ok _ _ _ _ _ (read_short_key (wset w' FLog (Some [])) k
      ltac:(rewrite wget_wset_other by discriminate; exact Wk) Pk Sk Tk)).
    rewrite verify_short_key. reflexivity.
  - assert (k = KK) as -> by (apply pref_all; [exact Pk|rewrite blen_KK; exact Tk]). clear Pk Sk Tk.
    destruct (good_args_ok a Ha) as (_ & Hi & Hf & Haa).
    pose proof (create_ok e p _ no_files Hp Hi Hf eq_refl eq_refl eq_refl) as Hc. rewrite Haa in Hc.
    assert (HD : disk e p [] [([], 0)] w).
    { destruct (new_disk e p Hp) as [A B C D E F G L]. rewrite new_world_eq in *.
      constructor; [rewrite Ed; exact A|rewrite Ek; exact B|exact C|exact D|exact E|exact F|exact G|exact L]. }
    destruct (open_ok e p Hp [] [([], 0)] (new_world e p) (new_disk e _ Hp)) as [Ho _].
    { right. exists []. split; reflexivity. }
    destruct (open_ok e p Hp [] [([], 0)] w HD) as [Ho2 _].
    { destruct (wget w FLog) as [l|]; [|auto]. right. exists []. cbn [part] in Pl. subst l. split; reflexivity. }
    do 2 eexists. split; [exact Ho2|]. exists []. unfold life. rewrite Hc, Ho.
    assert (W : wset w FLog (Some []) = wset (new_world e p) FLog (Some [])).
    { rewrite new_world_eq. clear - Ed Ek. destruct w as [wd wk wl]. unfold wget in Ed, Ek. cbn [w_dat w_key wset] in *. rewrite Ed, Ek. reflexivity. }
    rewrite W. reflexivity.
Qed.

Lemma create_stopped w1 w2 :
  fcrash all_in_order (create e a) no_files (durable no_files) w1 -> retried all_in_order e w1 w2 ->
  exists w' r, run (store_open e) w2 = (w', r) /\
  match r with
  | Er er => In er [ENoEnt; short_read; no_key_file; invalid_bucket_count]
  | Ok s => lived e a [] w' s
  end.
Proof using Ha.
  intros Hc Hr. apply open_parts. eapply retried_parts; [exact Hr|].
  eapply fine_crash; [exact Hc|apply create_fine; exact Ha|apply parts_no_files|apply sparts_durable, parts_no_files].
Qed.
End Opening.

(** Everything is on the disk when create() has returned. *)
Lemma created_survives e a w : good_args a ->
  on_disk (srun log_in_order (create e a) no_files (durable no_files)) w -> w = fst (run (create e a) no_files).
Proof.
  intros Ha Hd. destruct (good_args_ok a Ha) as (Hp & Hi & Hf & Haa).
  pose proof (create_ok e (dbp_of a) _ no_files Hp Hi Hf eq_refl eq_refl eq_refl) as Hc.
  rewrite Haa in Hc. rewrite Hc. cbn [fst].
  assert (X : forall f, wget w f = wget (new_world e (dbp_of a)) f).
  { intros f. apply (create_surv e (dbp_of a) (ca_load_factor a) (durable no_files) f _ Hp Hi Hf). rewrite Haa. apply Hd. }
  destruct w as [wd wk wl]. pose proof (X FDat) as X1. pose proof (X FKey) as X2. pose proof (X FLog) as X3.
  rewrite new_world_eq in *. unfold wget in X1, X2, X3. cbn [w_dat w_key w_log] in *. rewrite X1, X2, X3. reflexivity.
Qed.

(** A write not yet synced may be found torn. *)
Lemma torn_crash {A} n (p : prog A) w S w1 f ap off d k x y :
  after_ops n p w = Some (Do (IoWrite f ap off d) k, w1) -> on_disk S w -> wget w1 f = Some x -> off = blen x ->
  torn_write off (blen d) x y -> crash no_order p w S (wset w1 f (Some y)).
Proof.
  intros Ha Hd Hx -> Ht. destruct (after_steps no_order n p w _ w1 S Ha) as (S1 & Hs).
  pose proof (live_steps no_order _ _ _ _ _ _ Hs Hd) as Hd1.
  exists (k (snd (exec (IoWrite f ap (blen x) d) w1))), (fst (exec (IoWrite f ap (blen x) d) w1)),
    (sexec no_order (IoWrite f ap (blen x) d) w1 S1).
  split; [eapply steps_trans; [exact Hs|]; constructor; constructor|].
  intros g. cbn [sexec no_order]. rewrite Hx, N.eqb_refl, andb_false_r. unfold sset.
  destruct (fname_eqb f g) eqn:E.
  - assert (f = g) as <- by (destruct f, g; try discriminate E; reflexivity). rewrite wget_wset_same. right.
    exists x, y. split; [|auto]. rewrite <- Hx. apply Hd1.
  - rewrite wget_wset_other by (intros ->; destruct g; discriminate E). apply Hd1.
Qed.

(** A write not yet synced may be found cut short. *)
Lemma cut_crash {A} n (p : prog A) w S w1 f ap off d k x m :
  after_ops n p w = Some (Do (IoWrite f ap off d) k, w1) -> on_disk S w -> wget w1 f = Some x -> off = blen x ->
  fcrash all_in_order p w S (wset w1 f (Some (bwrite off (btake m d) x))).
Proof.
  intros Ha Hd Hx ->. destruct (after_steps all_in_order n p w _ w1 S Ha) as (S1 & Hs).
  pose proof (live_steps all_in_order _ _ _ _ _ _ Hs Hd) as Hd1.
  exists (k (snd (exec (IoWrite f ap (blen x) d) w1))), (fst (exec (IoWrite f ap (blen x) d) w1)),
    (sexec all_in_order (IoWrite f ap (blen x) d) w1 S1).
  split; [apply steps_fsteps; eapply steps_trans; [exact Hs|]; constructor; constructor|].
  intros g. cbn [sexec all_in_order]. rewrite Hx, N.eqb_refl, andb_false_r. unfold sset.
  destruct (fname_eqb f g) eqn:E.
  - assert (f = g) as <- by (destruct f, g; try discriminate E; reflexivity). rewrite wget_wset_same. right.
    exists m. reflexivity.
  - rewrite wget_wset_other by (intros ->; destruct g; discriminate E). apply Hd1.
Qed.

Lemma stopped_create e a w1 w2 : good_args a -> iter_ok e ->
  fcrash all_in_order (create e a) no_files (durable no_files) w1 -> retried all_in_order e w1 w2 ->
  exists w' r, run (store_open e) w2 = (w', r) /\
  match r with
  | Er er => In er [ENoEnt; short_read; no_key_file; invalid_bucket_count]
  | Ok s => lived e a [] w' s /\
      forall k, blen k = ca_key_size a -> run (store_fetch e s k) w' = (w', Er key_not_found)
  end.
Proof.
  intros Ha Hi Hc Hr. destruct (create_stopped e a Ha w1 w2 Hc Hr) as (w' & r & Ho & H).
  exists w', r. split; [exact Ho|]. destruct r as [s|er]; [|exact H]. split; [exact H|].
  intros k Hk. exact (new_is_empty e a w' s k Ha Hi H Hk).
Qed.
