(** Looking up keys in buckets and chains. *)
From Verif Require Import Model.Bytes Model.Err Model.Field Model.Format Model.IO
  Model.BulkIO Model.Bucket Model.Pool Model.Store
  Proofs.BytesFacts Proofs.FieldFacts Proofs.IOFacts Proofs.BucketFacts Proofs.BulkFacts
  Proofs.HashFacts Proofs.Table.

(** At most one record per offset. *)
Definition functional (P : list (N * drec)) : Prop :=
  forall o x y, In (o, x) P -> In (o, y) P -> x = y.

Lemma functional_placed l : functional (placed l).
Proof. intros o x y. apply placed_inj. Qed.

Section Lookup.
Variables (e : env) (kh : key_header).
Let H := e_hasher e.
Let salt := kh_salt kh.
Let ks := kh_key_size kh.
Let bs := kh_block_size kh.
Hypothesis Hcap : 1 <= bucket_capacity bs.
Hypothesis Hbs : bs <= 65535.

Section World.
Variables (w : world) (d : bytes) (P : list (N * drec)).
Hypothesis Hw : wget w FDat = Some d.
Hypothesis Hd : holds d P.
Hypothesis HP : functional P.

Lemma tail_hash_ne es h i :
  ssorted es -> lb es h <= i -> i < blen es -> en_hash (nthN es i en0) <> h ->
  forall en, In en (bdrop i es) -> en_hash en <> h.
Proof.
  intros Hs Hi Hl Hne en Hin.
  destruct (bdrop_In_nth _ _ en0 _ Hin) as (j & H1 & H2 & ->).
  pose proof (lb_above es h i Hs Hi Hl). pose proof (ssorted_nth es i j Hs H1 H2). lia.
Qed.

Lemma fetch_scan_ok b es sp h key fuel i :
  bk_rep bs b es sp -> ssorted es -> Forall (linked H salt ks P) es -> blen key = ks ->
  lb es h <= i -> i <= blen es -> fuel = N.to_nat (blen es - i) ->
  exists r, run (fetch_scan fuel ks h key b i) w = (w, Ok r) /\
    match r with
    | Some v => exists en, In en (bdrop i es) /\ In (en_off en, DRec key v) P
    | None => forall en v, In en (bdrop i es) -> en_hash en = h -> ~ In (en_off en, DRec key v) P
    end.
Proof.
  intros Hb Hs Hl Hk Hi. revert i Hi.
  induction fuel as [|fuel IH]; intros i Hi Hle Hf.
  - exists None. split; [reflexivity|]. rewrite bdrop_all by lia. simpl. tauto.
  - assert (Hlt : i < blen es) by lia.
    cbn [fetch_scan]; cbv zeta. rewrite (bk_at_rep _ _ _ _ _ Hb Hlt).
    destruct (N.eqb_spec (en_hash (nthN es i en0)) h) as [E|E]; simpl negb; cbv iota.
    + rewrite Forall_forall in Hl.
      destruct (Hl _ (nthN_In es i en0 Hlt)) as (k & v & Hin & Hsz & Hh & Hkk).
      destruct (read_data ks d P _ k v Hd Hin Hkk) as [R1 R2].
      rewrite Hsz. rewrite (run_ebind_ok _ _ _ _ _ (run_read _ _ _ _ _ Hw R1)), R2.
      rewrite btake_app_eq, bdrop_app_eq by auto.
      rewrite (bdrop_nth _ _ en0 Hlt).
      destruct (beq k key) eqn:Ek.
      * apply beq_eq in Ek. subst k. exists (Some v). split; [reflexivity|].
        eexists; split; [left; reflexivity|auto].
      * destruct (IH (i + 1)) as (r & Hr & Hp); try lia.
        exists r. split; [exact Hr|]. destruct r as [v'|].
        -- destruct Hp as (en & H1 & H2). exists en. simpl; auto.
        -- intros en v' [<-|Hen] Heq Hx; [|eapply Hp; eauto].
           pose proof (HP _ _ _ Hin Hx) as Q. injection Q; intros; subst.
           rewrite beq_refl in Ek. discriminate.
    + exists None. split; [reflexivity|]. intros en v Hin Heq.
      exfalso. exact (tail_hash_ne es h i Hs Hi Hlt E en Hin Heq).
Qed.

Lemma exists_scan_ok b es sp h key fuel i :
  bk_rep bs b es sp -> ssorted es -> Forall (linked H salt ks P) es -> blen key = ks ->
  lb es h <= i -> i <= blen es -> fuel = N.to_nat (blen es - i) ->
  exists r, run (exists_scan fuel ks h key b i) w = (w, Ok r) /\
    if r then exists en v, In en (bdrop i es) /\ In (en_off en, DRec key v) P
    else forall en v, In en (bdrop i es) -> en_hash en = h -> ~ In (en_off en, DRec key v) P.
Proof.
  intros Hb Hs Hl Hk Hi. revert i Hi.
  induction fuel as [|fuel IH]; intros i Hi Hle Hf.
  - exists false. split; [reflexivity|]. rewrite bdrop_all by lia. simpl. tauto.
  - assert (Hlt : i < blen es) by lia.
    cbn [exists_scan]; cbv zeta. rewrite (bk_at_rep _ _ _ _ _ Hb Hlt).
    destruct (N.eqb_spec (en_hash (nthN es i en0)) h) as [E|E]; simpl negb; cbv iota.
    + rewrite Forall_forall in Hl.
      destruct (Hl _ (nthN_In es i en0 Hlt)) as (k & v & Hin & Hsz & Hh & Hkk).
      destruct (read_data_key ks d P _ k v Hd Hin Hkk) as [R1 R2].
      rewrite (run_ebind_ok _ _ _ _ _ (run_read _ _ _ _ _ Hw R1)), R2.
      rewrite (bdrop_nth _ _ en0 Hlt).
      destruct (beq k key) eqn:Ek.
      * apply beq_eq in Ek. rewrite Ek in Hin. exists true. split; [reflexivity|].
        exists (nthN es i en0), v. split; [left; reflexivity|auto].
      * destruct (IH (i + 1)) as (r & Hr & Hp); try lia.
        exists r. split; [exact Hr|]. destruct r.
        -- destruct Hp as (en & v' & H1 & H2). exists en, v'. simpl; auto.
        -- intros en v' [<-|Hen] Heq Hx; [|eapply Hp; eauto].
           pose proof (HP _ _ _ Hin Hx) as Q. injection Q; intros; subst.
           rewrite beq_refl in Ek. discriminate.
    + exists false. split; [reflexivity|]. intros en v Hin Heq.
      exfalso. exact (tail_hash_ne es h i Hs Hi Hlt E en Hin Heq).
Qed.

Lemma bdrop_lb_In es h en : ssorted es -> In en es -> en_hash en = h -> In en (bdrop (lb es h) es).
Proof.
  intros Hs Hin Hh. rewrite <- (btake_bdrop (lb es h) es) in Hin.
  apply in_app_iff in Hin as [Hin|Hin]; auto. exfalso.
  apply (In_nth _ _ en0) in Hin as (j & Hj & E).
  unfold btake in E, Hj. rewrite firstn_length in Hj.
  assert (E' : nthN es (N.of_nat j) en0 = en).
  { unfold nthN. rewrite Nat2N.id, <- E.
    rewrite <- (firstn_skipn (N.to_nat (lb es h)) es) at 1. rewrite app_nth1; auto.
    rewrite firstn_length. lia. }
  pose proof (lb_below es h (N.of_nat j) ltac:(lia)). rewrite E' in H0. lia.
Qed.

Lemma In_bdrop {A} i (l : list A) x : In x (bdrop i l) -> In x l.
Proof. intros Hin. rewrite <- (btake_bdrop i l). apply in_app_iff; auto. Qed.

Lemma fetch_loop b es sp ces h key :
  bk_rep bs b es sp -> ents_ok es -> chain bs P sp ces ->
  Forall (linked H salt ks P) (es ++ ces) -> blen key = ks ->
  exists n r, loops (fetch_step e kh h key) n b w w r /\ N.of_nat n <= sp + 1 /\
    match r with
    | Ok v => exists en, In en (es ++ ces) /\ In (en_off en, DRec key v) P
    | Er er => er = key_not_found /\
        forall en v, In en (es ++ ces) -> en_hash en = h -> ~ In (en_off en, DRec key v) P
    end.
Proof.
  intros Hb Hes Hch. revert b es Hb Hes.
  induction Hch as [|sp es2 sp' ces H8 Hsp Hin Hlen Hok Hlt Hch IH]; intros b es Hb Hes Hl Hk.
  - rewrite app_nil_r in *.
    destruct (fetch_scan_ok b es 0 h key (N.to_nat (bk_size b - bk_lower_bound b h)) (bk_lower_bound b h))
      as (r & Hr & Hp); auto; try apply Hes;
      rewrite ?(lower_bound_rep _ _ _ _ _ Hb (proj1 Hes)), ?(rep_size _ _ _ _ Hb); auto using lb_le; try lia.
    exists 1%nat. destruct r as [v|].
    + exists (Ok v). split; [|split; [lia|]].
      * constructor. unfold fetch_step. rewrite (run_bind_eq _ _ _ _ _ Hr). reflexivity.
      * destruct Hp as (en & H1 & H2). eauto using In_bdrop.
    + exists (Er key_not_found). split; [|split; [lia|]].
      * constructor. unfold fetch_step. rewrite (run_bind_eq _ _ _ _ _ Hr).
        rewrite (rep_spill _ _ _ _ Hb). reflexivity.
      * split; auto. intros en v H1 H2. apply Hp; auto.
        rewrite (lower_bound_rep _ _ _ _ _ Hb (proj1 Hes)). apply bdrop_lb_In; auto. apply Hes.
  - apply Forall_app in Hl as [Hl1 Hl2].
    destruct (fetch_scan_ok b es sp h key (N.to_nat (bk_size b - bk_lower_bound b h)) (bk_lower_bound b h))
      as (r & Hr & Hp); auto; try apply Hes;
      rewrite ?(lower_bound_rep _ _ _ _ _ Hb (proj1 Hes)), ?(rep_size _ _ _ _ Hb); auto using lb_le; try lia.
    destruct r as [v|].
    + exists 1%nat, (Ok v). split; [|split; [lia|]].
      * constructor. unfold fetch_step. rewrite (run_bind_eq _ _ _ _ _ Hr). reflexivity.
      * destruct Hp as (en & H1 & H2). exists en. split; auto. apply in_app_iff. eauto using In_bdrop.
    + destruct (read_spill bs e d P w sp es2 sp') as (b2 & Hb2 & Hrep2); auto; [lia|].
      destruct (IH b2 es2 Hrep2 Hok Hl2 Hk) as (n & r & Hloop & Hn & Hpost).
      exists (Datatypes.S n), r. split; [|split; [lia|]].
      * econstructor; [|exact Hloop]. unfold fetch_step.
        rewrite (run_bind_eq _ _ _ _ _ Hr), (rep_spill _ _ _ _ Hb).
        replace (sp =? 0) with false by lia.
        rewrite (run_bind_eq _ _ _ _ _ Hb2). reflexivity.
      * destruct r as [v|er].
        -- destruct Hpost as (en & H1 & H2). exists en. split; auto. apply in_app_iff; auto.
        -- destruct Hpost as [-> Hpost]. split; auto. intros en v Hen Hh.
           apply in_app_iff in Hen as [Hen|Hen]; [|apply Hpost; auto].
           apply Hp; auto. rewrite (lower_bound_rep _ _ _ _ _ Hb (proj1 Hes)).
           apply bdrop_lb_In; auto. apply Hes.
Qed.

Lemma exists_loop b es sp ces h key :
  bk_rep bs b es sp -> ents_ok es -> chain bs P sp ces ->
  Forall (linked H salt ks P) (es ++ ces) -> blen key = ks ->
  exists n r, loops (exists_step e kh h key) n b w w (Ok r) /\ N.of_nat n <= sp + 1 /\
    if r then exists en v, In en (es ++ ces) /\ In (en_off en, DRec key v) P
    else forall en v, In en (es ++ ces) -> en_hash en = h -> ~ In (en_off en, DRec key v) P.
Proof.
  intros Hb Hes Hch. revert b es Hb Hes.
  induction Hch as [|sp es2 sp' ces H8 Hsp Hin Hlen Hok Hlt Hch IH]; intros b es Hb Hes Hl Hk.
  - rewrite app_nil_r in *.
    destruct (exists_scan_ok b es 0 h key (N.to_nat (bk_size b - bk_lower_bound b h)) (bk_lower_bound b h))
      as (r & Hr & Hp); auto; try apply Hes;
      rewrite ?(lower_bound_rep _ _ _ _ _ Hb (proj1 Hes)), ?(rep_size _ _ _ _ Hb); auto using lb_le; try lia.
    exists 1%nat, r. destruct r.
    + split; [|split; [lia|]].
      * constructor. unfold exists_step. rewrite (run_bind_eq _ _ _ _ _ Hr). reflexivity.
      * destruct Hp as (en & v & H1 & H2). eauto using In_bdrop.
    + split; [|split; [lia|]].
      * constructor. unfold exists_step. rewrite (run_bind_eq _ _ _ _ _ Hr).
        rewrite (rep_spill _ _ _ _ Hb). reflexivity.
      * intros en v H1 H2. apply Hp; auto.
        rewrite (lower_bound_rep _ _ _ _ _ Hb (proj1 Hes)). apply bdrop_lb_In; auto. apply Hes.
  - apply Forall_app in Hl as [Hl1 Hl2].
    destruct (exists_scan_ok b es sp h key (N.to_nat (bk_size b - bk_lower_bound b h)) (bk_lower_bound b h))
      as (r & Hr & Hp); auto; try apply Hes;
      rewrite ?(lower_bound_rep _ _ _ _ _ Hb (proj1 Hes)), ?(rep_size _ _ _ _ Hb); auto using lb_le; try lia.
    destruct r.
    + exists 1%nat, true. split; [|split; [lia|]].
      * constructor. unfold exists_step. rewrite (run_bind_eq _ _ _ _ _ Hr). reflexivity.
      * destruct Hp as (en & v & H1 & H2). exists en, v. split; auto. apply in_app_iff. eauto using In_bdrop.
    + destruct (read_spill bs e d P w sp es2 sp') as (b2 & Hb2 & Hrep2); auto; [lia|].
      destruct (IH b2 es2 Hrep2 Hok Hl2 Hk) as (n & r & Hloop & Hn & Hpost).
      exists (Datatypes.S n), r. split; [|split; [lia|]].
      * econstructor; [|exact Hloop]. unfold exists_step.
        rewrite (run_bind_eq _ _ _ _ _ Hr), (rep_spill _ _ _ _ Hb).
        replace (sp =? 0) with false by lia.
        rewrite (run_bind_eq _ _ _ _ _ Hb2). reflexivity.
      * destruct r.
        -- destruct Hpost as (en & v & H1 & H2). exists en, v. split; auto. apply in_app_iff; auto.
        -- intros en v Hen Hh.
           apply in_app_iff in Hen as [Hen|Hen]; [|apply Hpost; auto].
           apply Hp; auto. rewrite (lower_bound_rep _ _ _ _ _ Hb (proj1 Hes)).
           apply bdrop_lb_In; auto. apply Hes.
Qed.

Lemma fetch_bucket_ok b es sp ces h key :
  bk_rep bs b es sp -> ents_ok es -> chain bs P sp ces ->
  Forall (linked H salt ks P) (es ++ ces) -> blen key = ks ->
  exists r, run (fetch_bucket e kh h key b) w = (w, r) /\
    match r with
    | Ok v => exists en, In en (es ++ ces) /\ In (en_off en, DRec key v) P
    | Er er => er = key_not_found /\
        forall en v, In en (es ++ ces) -> en_hash en = h -> ~ In (en_off en, DRec key v) P
    end.
Proof.
  intros Hb Hes Hch Hl Hk. destruct (fetch_loop b es sp ces h key) as (n & r & Hr & Hn & Hp); auto.
  exists r. split; auto. eapply loop_run; eauto. apply chain_lt in Hch. lia.
Qed.

Lemma exists_bucket_ok b es sp ces h key :
  bk_rep bs b es sp -> ents_ok es -> chain bs P sp ces ->
  Forall (linked H salt ks P) (es ++ ces) -> blen key = ks ->
  exists r, run (exists_bucket e kh h key b) w = (w, Ok r) /\
    if r then exists en v, In en (es ++ ces) /\ In (en_off en, DRec key v) P
    else forall en v, In en (es ++ ces) -> en_hash en = h -> ~ In (en_off en, DRec key v) P.
Proof.
  intros Hb Hes Hch Hl Hk. destruct (exists_loop b es sp ces h key) as (n & r & Hr & Hn & Hp); auto.
  exists r. split; auto. eapply loop_run; eauto. apply chain_lt in Hch. lia.
Qed.
End World.
End Lookup.
