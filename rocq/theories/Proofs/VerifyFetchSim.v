(** verify() with the count of fetches left out. *)
From Verif Require Import Model.Bytes Model.Err Model.Field Model.Format Model.IO
  Model.BulkIO Model.Bucket Model.Recover Model.Verify Model.VerifyProgress Model.VerifyFetch
  Proofs.BytesFacts Proofs.FieldFacts Proofs.IOFacts Proofs.BucketFacts Proofs.VerifyProgressFacts.

Definition rproj {A B} (f : B -> A) (a : res A) (b : res B) : Prop :=
  match b with Ok x => a = Ok (f x) | Er er => a = Er er end.

Lemma sim_ret_r {A B C} (R : A -> B -> Prop) (R' : A -> C -> Prop) (f : B -> prog C) :
  (forall a b, R a b -> sim R' (Ret a) (f b)) -> forall p q, sim R p q -> sim R' p (bind q f).
Proof.
  intros H. induction p as [a|o k IH]; intros [b|o' k'] X; cbn [sim bind] in *; try contradiction.
  - apply H in X. destruct (f b); exact X.
  - destruct X as [<- X]. split; auto.
Qed.

Lemma scan_proj fuel h o b : forall i f, fst (vfindc_scan fuel h o b i f) = vfind_scan fuel h o b i.
Proof.
  induction fuel as [|fuel IH]; intros i f; cbn [vfindc_scan vfind_scan]; [reflexivity|]. cbv zeta.
  destruct (negb _); [reflexivity|]. destruct (_ =? _); [reflexivity|]. apply IH.
Qed.

Lemma find_sim e bs h o b f : sim (rproj (fun _ => tt)) (vfind e bs h o b) (vfindc e bs h o b f).
Proof.
  unfold vfind, vfindc. apply sim_loop with (I := fun (s : bucket) (s' : bucket * N) => fst s' = s); try reflexivity.
  clear b f. intros b [b' f] E. cbn [fst] in E. subst b'. unfold vfind_step, vfindc_step.
  destruct (_ <? _); [reflexivity|]. cbv zeta.
  pose proof (scan_proj (N.to_nat (bk_size b - bk_lower_bound b h)) h o b (bk_lower_bound b h) f) as X.
  destruct (vfindc_scan _ _ _ _ _ _) as [x f']. cbn [fst] in X. rewrite <- X.
  destruct x; [reflexivity|]. destruct (_ =? _); [reflexivity|].
  apply sim_same. intros [b2|er]; [reflexivity|]. destruct er; reflexivity.
Qed.

Opaque vfind vfindc loop.

Section Sim.
Variables (e : env) (kh : key_header).

(** Records that are not counted as values leave the count of fetches alone. *)
Definition nrel (v : vinfo) (f : N) (s : vinfo * breader) (s' : vinfo * N * breader) : Prop :=
  (fst (fst s'), snd s') = s /\ (vi_value_count (fst s) = vi_value_count v -> snd (fst s') = f).
Lemma record_csim v f r :
  sim (sum_rel (nrel v f) (rproj fst)) (vn_record e kh (v, r)) (vnf_record e kh (v, f, r)).
Proof using.
  unfold vn_record, vnf_record. cbv zeta. repeat sims; try reflexivity; try (split; [reflexivity|solve [auto]]).
  eapply sim_bind; [|apply find_sim]. intros a0 [f'|er] X; cbn [rproj] in X; subst a0; cbn [sim sum_rel rproj]; [|reflexivity].
  split; [reflexivity|]. cbn [fst snd vi_value vi_value_count]. intros X. exfalso. lia.
Qed.

Definition frel (v : vinfo) (f : N) (s : list N * vinfo * breader) (s' : list N * vinfo * N * breader) : Prop :=
  (fst (fst s'), snd s') = s /\ (vi_value_count (snd (fst s)) = vi_value_count v -> snd (fst s') = f).
Lemma frecord_csim b0 b1 buf tmp nk v f r :
  sim (sum_rel (frel v f) (rproj fst))
    (vf_record e kh b0 b1 buf tmp (nk, v, r)) (vff_record e kh b0 b1 buf tmp (nk, v, f, r)).
Proof using.
  unfold vf_record, vff_record. cbv zeta. repeat sims; try reflexivity; try (split; [reflexivity|solve [auto]]).
  eapply sim_bind; [|apply find_sim]. intros a0 [f'|er] X; cbn [rproj] in X; subst a0; cbn [sim sum_rel rproj]; [|reflexivity].
  destruct (_ =? _); cbn [sim sum_rel rproj]; [reflexivity|].
  split; [reflexivity|]. cbn [fst snd vi_value vi_value_count]. intros X. exfalso. lia.
Qed.

Lemma pass_csim d ch b0 tmp v f :
  sim (sum_rel (fun s s' => fst s' = s) (rproj fst)) (vf_pass e kh d ch (b0, tmp, v)) (vff_pass e kh d ch (b0, tmp, v, f)).
Proof using.
  unfold vf_pass, vff_pass. cbv zeta. destruct (_ <? _); [|reflexivity].
  apply sim_same. intros [buf|er]; [|reflexivity]. apply sim_same. intros [[[nk tmp'] v']|er]; [|reflexivity].
  eapply (sim_bind (rproj fst)).
  - intros a [[[nk2 v2] f2]|er] X; cbn [rproj fst] in X; subst a; [|reflexivity].
    destruct (forallb _ _); reflexivity.
  - apply sim_loop with (I := fun s s' => (fst (fst s'), snd s') = s); try reflexivity.
    intros s [[[nk1 v1] f1] r1] X. cbn [fst snd] in X. subst s.
    pose proof (frecord_csim b0 (N.min (b0 + ch) (kh_buckets kh)) buf tmp' nk1 v1 f1 r1) as Y.
    revert Y. generalize (vf_record e kh b0 (N.min (b0 + ch) (kh_buckets kh)) buf tmp' (nk1, v1, r1)).
    generalize (vff_record e kh b0 (N.min (b0 + ch) (kh_buckets kh)) buf tmp' (nk1, v1, f1, r1)).
    intros q p. revert q. induction p as [a|o k IH]; intros [b|o' k'] Y; cbn [sim] in *; try contradiction.
    + destruct a, b; try contradiction Y; [exact (proj1 Y)|exact Y].
    + destruct Y as [Y1 Y2]. split; auto.
Qed.

Lemma normal_csim d : sim (rproj fst) (verify_normal e kh d) (vnf e kh d).
Proof using.
  unfold verify_normal, vnf. cbv zeta. unfold ebind. eapply (sim_bind (rproj fst)).
  - intros a [[v f]|er] X; cbn [rproj fst] in X; subst a; [|reflexivity].
    apply (sim_ret_r eq); [|apply sim_refl]. intros a [x|er] ->; reflexivity.
  - apply sim_loop with (I := fun s s' => (fst (fst s'), snd s') = s); try reflexivity.
    intros s [[v f] r] X. cbn [fst snd] in X. subst s.
    pose proof (record_csim v f r) as Y. revert Y. generalize (vn_record e kh (v, r)), (vnf_record e kh (v, f, r)).
    intros p. induction p as [a|o k IH]; intros [b|o' k'] Y; cbn [sim] in *; try contradiction.
    + destruct a, b; try contradiction Y; [exact (proj1 Y)|exact Y].
    + destruct Y as [Y1 Y2]. split; auto.
Qed.

Lemma fast_csim d buf : sim (rproj fst) (verify_fast e kh d buf) (vff e kh d buf).
Proof using.
  unfold verify_fast, vff. destruct (_ <? _); [reflexivity|]. cbv zeta.
  apply sim_loop with (I := fun s s' => fst s' = s); try reflexivity.
  intros s [[[q tmp] v] f] X. cbn [fst] in X. subst s. apply pass_csim.
Qed.

Lemma vnf_keeps w v f r v' r' : run (vn_record e kh (v, r)) w = (w, inl (v', r')) ->
  exists f', run (vnf_record e kh (v, f, r)) w = (w, inl (v', f', r')) /\
    (vi_value_count v' = vi_value_count v -> f' = f).
Proof using.
  intros E. destruct (sim_run _ _ _ w (record_csim v f r)) as [X Y]. rewrite E in X, Y. cbn [fst snd] in X, Y.
  destruct (run (vnf_record e kh (v, f, r)) w) as [w2 [[[v2 f2] r2]|x]]; cbn [fst snd] in X, Y; [|contradiction Y].
  destruct Y as [Y Z]. cbn [fst snd] in Y, Z. injection Y as -> ->. subst w2. eauto.
Qed.

Lemma vff_keeps w b0 b1 buf tmp nk v f r nk' v' r' :
  run (vf_record e kh b0 b1 buf tmp (nk, v, r)) w = (w, inl (nk', v', r')) ->
  exists f', run (vff_record e kh b0 b1 buf tmp (nk, v, f, r)) w = (w, inl (nk', v', f', r')) /\
    (vi_value_count v' = vi_value_count v -> f' = f).
Proof using.
  intros E. destruct (sim_run _ _ _ w (frecord_csim b0 b1 buf tmp nk v f r)) as [X Y]. rewrite E in X, Y. cbn [fst snd] in X, Y.
  destruct (run (vff_record e kh b0 b1 buf tmp (nk, v, f, r)) w) as [w2 [[[[nk2 v2] f2] r2]|x]]; cbn [fst snd] in X, Y; [|contradiction Y].
  destruct Y as [Y Z]. cbn [fst snd] in Y, Z. injection Y as -> -> ->. subst w2. eauto.
Qed.
End Sim.

(** verify() is verify_report with the ratios left out, on any files. *)
Lemma verify_report_sim e buf : sim (rproj vr_info) (verify e buf) (verify_report e buf).
Proof.
  unfold verify, verify_report, verify_open, ebind, plift, pret.
  repeat (apply sim_assoc; apply sim_same; intros [?|?]; [|cbn [bind sim rproj]; reflexivity]).
  cbn [bind].
  apply (sim_ret_r (rproj fst)).
  - intros x [[v f]|er] X; cbn [rproj fst] in X; subst x; reflexivity.
  - sims; [apply normal_csim|apply fast_csim].
Qed.
Lemma verify_report_same e buf w :
  fst (run (verify_report e buf) w) = fst (run (verify e buf) w) /\
  match snd (run (verify_report e buf) w) with
  | Ok x => snd (run (verify e buf) w) = Ok (vr_info x)
  | Er er => snd (run (verify e buf) w) = Er er
  end.
Proof. destruct (sim_run _ _ _ w (verify_report_sim e buf)) as [X Y]. split; [symmetry; exact X|exact Y]. Qed.
