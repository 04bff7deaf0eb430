(** Abstract contents of a database: data records, bucket table, spill chains. *)
From Verif Require Import Model.Bytes Model.Err Model.Field Model.Format Model.IO
  Model.BulkIO Model.Bucket Model.Pool Model.Store
  Proofs.BytesFacts Proofs.FieldFacts Proofs.IOFacts Proofs.BucketFacts Proofs.BulkFacts
  Proofs.HashFacts.

Global Opaque wr16 wr24 wr32 wr48 wr64 rd16 rd24 rd32 rd48 rd64.

(** Records of the data file. *)
Inductive drec := DRec (k v : bytes) | SRec (es : list entry) (sp : N).

Definition enc_rec (r : drec) : bytes :=
  match r with
  | DRec k v => wr48 (blen v) ++ k ++ v
  | SRec es sp => wr48 0 ++ wr16 (bucket_size (blen es)) ++ enc_bucket es sp
  end.
Definition enc_recs (l : list drec) : bytes := flat_map enc_rec l.

(** Records with their offsets. *)
Fixpoint place (o : N) (l : list drec) : list (N * drec) :=
  match l with
  | [] => []
  | r :: l' => (o, r) :: place (o + blen (enc_rec r)) l'
  end.
Definition placed (l : list drec) : list (N * drec) := place dat_hdr_size l.

Lemma enc_recs_app a b : enc_recs (a ++ b) = enc_recs a ++ enc_recs b.
Proof. apply flat_map_app. Qed.

Lemma place_app o a b : place o (a ++ b) = place o a ++ place (o + blen (enc_recs a)) b.
Proof.
  revert o; induction a as [|r a IH]; intros o; simpl.
  - rewrite blen_nil, N.add_0_r. auto.
  - rewrite IH. unfold enc_recs; simpl. rewrite blen_app, N.add_assoc. auto.
Qed.

Lemma enc_rec_len r : 6 <= blen (enc_rec r).
Proof. destruct r; simpl; rewrite !blen_app, blen_wr48; lia. Qed.

Lemma place_In o l o' r :
  In (o', r) (place o l) ->
  o <= o' /\ o' + blen (enc_rec r) <= o + blen (enc_recs l) /\
  forall pre, blen pre = o -> bsub o' (blen (enc_rec r)) (pre ++ enc_recs l) = enc_rec r.
Proof.
  revert o; induction l as [|x l IH]; intros o Hin; simpl in Hin; [tauto|].
  unfold enc_recs in *; simpl. rewrite blen_app.
  destruct Hin as [E|Hin].
  - injection E; intros; subst. split; [lia|split; [lia|]].
    intros. apply bsub_app_eq; auto.
  - apply IH in Hin as (H1 & H2 & H3). pose proof (enc_rec_len x).
    split; [lia|split; [lia|]]. intros pre Hp. rewrite app_assoc. apply H3.
    rewrite blen_app. lia.
Qed.

Lemma place_sorted o l : StronglySorted (fun a b => fst a < fst b) (place o l).
Proof.
  revert o; induction l as [|r l IH]; intros o; simpl; constructor; auto.
  rewrite Forall_forall. intros [o' r'] Hin. apply place_In in Hin as (H & _).
  pose proof (enc_rec_len r). simpl. lia.
Qed.

Lemma sorted_fst_inj {A} (l : list (N * A)) o x y :
  StronglySorted (fun a b => fst a < fst b) l -> In (o, x) l -> In (o, y) l -> x = y.
Proof.
  induction 1 as [|[o' z] l Hs IH Hf]; simpl; [tauto|].
  rewrite Forall_forall in Hf.
  intros [E1|H1] [E2|H2]; try (injection E1; intros; subst); try (injection E2; intros; subst); auto.
  - specialize (Hf _ H2). simpl in Hf. lia.
  - specialize (Hf _ H1). simpl in Hf. lia.
Qed.

Lemma placed_inj l o x y : In (o, x) (placed l) -> In (o, y) (placed l) -> x = y.
Proof. apply sorted_fst_inj, place_sorted. Qed.

Lemma placed_ge l o r : In (o, r) (placed l) -> 92 <= o.
Proof. intros H; apply place_In in H as (H & _). exact H. Qed.

Lemma placed_app a b : placed (a ++ b) = placed a ++ place (dat_hdr_size + blen (enc_recs a)) b.
Proof. apply place_app. Qed.

(** The data records among placed records. *)
Fixpoint datas (P : list (N * drec)) : list (N * bytes * bytes) :=
  match P with
  | [] => []
  | (o, DRec k v) :: P' => (o, k, v) :: datas P'
  | (_, SRec _ _) :: P' => datas P'
  end.

Lemma datas_In P o k v : In (o, k, v) (datas P) <-> In (o, DRec k v) P.
Proof.
  induction P as [|[o' [k' v'|es sp]] P IH]; simpl.
  - tauto.
  - rewrite IH. split; intros [E|E]; auto; left; congruence.
  - rewrite IH. split; auto. intros [E|E]; auto; congruence.
Qed.

Lemma datas_app a b : datas (a ++ b) = datas a ++ datas b.
Proof.
  induction a as [|[o [k v|es sp]] a IH]; simpl; auto. rewrite IH. auto.
Qed.

(** The file holds the placed records. *)
Definition holds (d : bytes) (P : list (N * drec)) : Prop :=
  forall o r, In (o, r) P ->
    o + blen (enc_rec r) <= blen d /\ bsub o (blen (enc_rec r)) d = enc_rec r.

Lemma holds_placed hdr l : blen hdr = dat_hdr_size -> holds (hdr ++ enc_recs l) (placed l).
Proof.
  intros Hh o r Hin. apply place_In in Hin as (H1 & H2 & H3). rewrite blen_app. split; [lia|].
  apply H3; auto.
Qed.

Lemma holds_incl d P P' : (forall x, In x P' -> In x P) -> holds d P -> holds d P'.
Proof. intros Hi H o r Hin. apply H; auto. Qed.

Lemma holds_app d x P : holds d P -> holds (d ++ x) P.
Proof.
  intros H o r Hin. specialize (H o r Hin) as [H1 H2]. rewrite blen_app. split; [lia|].
  rewrite bsub_app_l by lia. auto.
Qed.

Section Tab.
Variables (H : hasher) (salt ks bs : N).

(** A bucket of entries: sorted, well-formed. *)
Definition ents_ok (es : list entry) : Prop := ssorted es /\ Forall entry_ok es.

(** Well-formed records. *)
Definition rec_ok (r : drec) : Prop :=
  match r with
  | DRec k v => blen k = ks /\ 0 < blen v /\ blen v < 4294967296
  | SRec es sp => ents_ok es /\ blen es = bucket_capacity bs /\ sp < 281474976710656
  end.

(** The entry of a data record. *)
Definition entry_of (x : N * bytes * bytes) : entry :=
  let '(o, k, v) := x in Entry o (blen v) (hash H salt k).

(** The entry refers to a data record. *)
Definition linked (P : list (N * drec)) (en : entry) : Prop :=
  exists k v, In (en_off en, DRec k v) P /\ en_size en = blen v /\
    en_hash en = hash H salt k /\ blen k = ks.

(** Entries of the spill chain starting at [sp]. *)
Inductive chain (P : list (N * drec)) : N -> list entry -> Prop :=
| chain_nil : chain P 0 []
| chain_cons sp es sp' ces :
    8 <= sp -> sp < 281474976710656 -> In (sp - 8, SRec es sp') P ->
    blen es = bucket_capacity bs -> ents_ok es -> sp' < sp ->
    chain P sp' ces -> chain P sp (es ++ ces).

Lemma chain_incl P P' sp ces : (forall x, In x P -> In x P') -> chain P sp ces -> chain P' sp ces.
Proof. intros Hi. induction 1; econstructor; eauto. Qed.

Lemma chain_lt P sp ces : chain P sp ces -> sp < 281474976710656.
Proof. destruct 1; lia. Qed.

Lemma linked_incl P P' en : (forall x, In x P -> In x P') -> linked P en -> linked P' en.
Proof. intros Hi (k & v & A & B). exists k, v. auto. Qed.

(** Table invariant: bucket [n] and its chain hold exactly the entries of [E]
    with index [n]. *)
Definition bent := (list entry * N)%type.
Definition mine (B M n : N) (en : entry) : bool := bucket_index (en_hash en) B M =? n.

Record bucket_inv (P : list (N * drec)) (b : bent) (es_all : list entry) : Prop := BucketInv {
  bi_ok : ents_ok (fst b);
  bi_cap : blen (fst b) <= bucket_capacity bs;
  bi_ne : snd b <> 0 -> fst b <> [];
  bi_chain : exists ces, chain P (snd b) ces /\ Permutation (fst b ++ ces) es_all }.

Record tinv (P : list (N * drec)) (T : list bent) (M : N) (E : list entry) : Prop := TInv {
  ti_pow : pow_ok (blen T) M;
  ti_b : forall n, n < blen T ->
    bucket_inv P (nthN T n ([], 0)) (filter (mine (blen T) M n) E) }.

Lemma bucket_inv_perm P b l l' : Permutation l l' -> bucket_inv P b l -> bucket_inv P b l'.
Proof.
  intros Hp [A B C (ces & D & F)]. constructor; auto. exists ces. rewrite F. auto.
Qed.

Lemma bucket_inv_incl P P' b l :
  (forall x, In x P -> In x P') -> bucket_inv P b l -> bucket_inv P' b l.
Proof.
  intros Hi [A B C (ces & D & F)]. constructor; auto. exists ces. split; auto.
  eapply chain_incl; eauto.
Qed.

Lemma tinv_incl P P' T M E : (forall x, In x P -> In x P') -> tinv P T M E -> tinv P' T M E.
Proof. intros Hi [A B]. constructor; auto. intros. eapply bucket_inv_incl; eauto. Qed.

(** ** Reading a data record through an entry. *)
Lemma read_data d P o k v :
  holds d P -> In (o, DRec k v) P -> blen k = ks ->
  o + 6 + (ks + blen v) <= blen d /\ bsub (o + 6) (ks + blen v) d = k ++ v.
Proof.
  intros Hh Hin Hk. specialize (Hh _ _ Hin) as [H1 H2]. simpl in H1, H2.
  rewrite !blen_app, blen_wr48, Hk in H1. rewrite !blen_app, blen_wr48, Hk in H2. split; [lia|].
  replace (bsub (o + 6) (ks + blen v) d) with (bsub 6 (ks + blen v) (bsub o (6 + (ks + blen v)) d))
    by (rewrite bsub_bsub; [reflexivity|lia]).
  rewrite H2. apply bsub_app_eq'; auto. rewrite blen_app. lia.
Qed.

Lemma read_data_key d P o k v :
  holds d P -> In (o, DRec k v) P -> blen k = ks ->
  o + 6 + ks <= blen d /\ bsub (o + 6) ks d = k.
Proof.
  intros Hh Hin Hk. destruct (read_data _ _ _ _ _ Hh Hin Hk) as [H1 H2]. split; [lia|].
  replace (bsub (o + 6) ks d) with (bsub 0 ks (bsub (o + 6) (ks + blen v) d))
    by (rewrite bsub_bsub; [f_equal; lia|lia]).
  rewrite H2. apply (bsub_app_eq 0 ks [] k v); auto.
Qed.

(** Reading a spill record. *)
Lemma read_spill e d P w sp es sp' :
  wget w FDat = Some d -> holds d P -> In (sp - 8, SRec es sp') P -> 8 <= sp ->
  blen es = bucket_capacity bs -> ents_ok es -> sp' < 281474976710656 ->
  1 <= bucket_capacity bs -> bs <= 65535 ->
  exists b, run (bk_read (fresh e bs) FDat sp) w = (w, Ok b) /\ bk_rep bs b es sp'.
Proof.
  intros Hw Hh Hin H8 Hes [Hs Ho] Hsp Hc Hb.
  pose proof (Hh _ _ Hin) as [H1 H2]. simpl in H1, H2.
  rewrite !blen_app, blen_wr48, blen_wr16, blen_enc_bucket in H1.
  rewrite !blen_app, blen_wr48, blen_wr16, blen_enc_bucket in H2.
  pose proof (bk_read_rep (fresh e bs) FDat sp w d es sp' []) as X.
  rewrite blen_fresh in X. apply X; clear X; auto; try lia.
  - rewrite <- Hes. lia.
  - rewrite app_nil_r, <- Hes.
    replace (bsub sp (bucket_size (blen es)) d) with
      (bsub 8 (bucket_size (blen es)) (bsub (sp - 8) (6 + (2 + bucket_size (blen es))) d))
      by (rewrite bsub_bsub; [f_equal; lia|lia]).
    rewrite H2. rewrite app_assoc. apply bsub_app_eq'; auto.
    rewrite blen_enc_bucket. auto.
Qed.

(** ** Lookup in one bucket *)
Lemma bdrop_nth {A} i (l : list A) d : i < blen l -> bdrop i l = nthN l i d :: bdrop (i + 1) l.
Proof.
  unfold bdrop, nthN, blen. intros Hi. replace (N.to_nat (i + 1)) with (Datatypes.S (N.to_nat i)) by lia.
  assert (Hn : (N.to_nat i < length l)%nat) by lia. revert Hn. clear. generalize (N.to_nat i).
  intros n; revert l; induction n as [|n IH]; intros [|x l] Hn; simpl in *; try lia; auto.
  apply IH. lia.
Qed.

Lemma bdrop_In_nth {A} i (l : list A) d x :
  In x (bdrop i l) -> exists j, i <= j /\ j < blen l /\ x = nthN l j d.
Proof.
  intros Hin. apply (In_nth _ _ d) in Hin as (j & Hj & <-).
  exists (i + N.of_nat j). pose proof (blen_bdrop i l) as Hb. unfold blen at 1 in Hb.
  split; [lia|split; [lia|]]. unfold nthN, bdrop.
  rewrite <- (firstn_skipn (N.to_nat i) l) at 2.
  rewrite app_nth2; rewrite firstn_length; unfold blen in *; [f_equal|]; lia.
Qed.
End Tab.
