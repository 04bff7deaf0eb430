(** The commands of the tool. *)
From Coq Require Import String Ascii.
From Verif Require Import Model.Bytes Model.Err Model.Field Model.Format Model.IO Model.BulkIO
  Model.Bucket Model.Pool Model.Recover Model.Create Model.Store Model.History Model.Visit Model.Crash Model.Events
  Model.Rekey Model.RekeyLife Model.Verify Model.Tool
  Spec SpecFormat SpecHeader SpecVisit SpecVisitAny SpecTool Proofs.BytesFacts Proofs.IOFacts Proofs.SafeFacts Proofs.CrashFacts
  Proofs.PoolFacts Proofs.BucketFacts Proofs.BulkFacts Proofs.HashFacts Proofs.Table Proofs.Lookup Proofs.SplitFacts
  Proofs.CommitFacts Proofs.CommitInv Proofs.CommitRun Proofs.StoreInv Proofs.HeaderFacts Proofs.OpenFacts Proofs.HistoryFacts
  Proofs.LifeFacts Proofs.DiskFacts Proofs.RefuseFacts Proofs.VisitFacts Proofs.WrittenFacts
  Proofs.VisitAny Proofs.BackupFacts Proofs.ToolFacts.
Local Open Scope string_scope.
Local Open Scope list_scope.
Local Open Scope N_scope.
Opaque loop.

(** ** The histogram *)
Lemma bump_ok n : forall l, (n < length l)%nat -> exists l', bump n l = Some l' /\ length l' = length l /\
  forall i, nth i l' 0 = nth i l 0 + (if Nat.eqb i n then 1 else 0).
Proof.
  induction n as [|n IH]; intros [|x l] Hn; cbn [length] in Hn; try lia.
  - exists (x + 1 :: l). split; [reflexivity|]. split; [reflexivity|]. intros [|i]; cbn [nth Nat.eqb]; lia.
  - destruct (IH l) as (l' & E & L & N'); [lia|]. exists (x :: l'). cbn [bump]. rewrite E. split; [reflexivity|].
    split; [cbn [length]; lia|]. intros [|i]; cbn [nth Nat.eqb]; [lia|apply N'].
Qed.

Definition sized (kv : bytes * bytes) : Prop := 0 < blen (snd kv) /\ blen (snd kv) < 2 ^ 64.
Lemma of_size_log2 i kv : 0 < blen (snd kv) -> of_size i kv = (N.log2 (blen (snd kv)) =? N.of_nat i).
Proof.
  intros H. unfold of_size. rewrite N.add_1_r. destruct (N.eqb_spec (N.log2 (blen (snd kv))) (N.of_nat i)) as [E|E].
  - pose proof (N.log2_spec _ H) as [A B]. rewrite E in A, B.
    apply andb_true_intro. split; [apply N.leb_le; exact A|apply N.ltb_lt; exact B].
  - apply not_true_is_false. intros X. apply andb_prop in X as [A B]. apply E.
    apply N.log2_unique; [lia|]. split; [exact (proj1 (N.leb_le _ _) A)|exact (proj1 (N.ltb_lt _ _) B)].
Qed.

Lemma count_sizes calls : forall h, Forall sized (items calls) -> length h = 64%nat ->
  exists h', fold_left count_size calls (Some h) = Some h' /\ length h' = 64%nat /\
    forall i, nth i h' 0 = nth i h 0 + blen (filter (of_size i) (items calls)).
Proof.
  induction calls as [|[k v|x y] calls IH]; intros h Hs Hl; cbn [fold_left count_size items] in *.
  - exists h. split; [reflexivity|]. split; [exact Hl|]. intros i. cbn [filter]. unfold blen. cbn [length]. lia.
  - inversion Hs as [|? ? [H0 H1] Hs']; subst. cbn [snd] in *. rewrite tool_log2_ok by assumption. cbv zeta.
    replace (Z.of_N (N.log2 (blen v)) <? 0)%Z with false by lia.
    assert (HL : N.log2 (blen v) < 64) by (apply N.log2_lt_pow2; assumption).
    destruct (bump_ok (Z.to_nat (Z.of_N (N.log2 (blen v)))) h) as (h1 & E1 & L1 & N1); [lia|].
    rewrite E1. destruct (IH h1 Hs') as (h2 & E2 & L2 & N2); [lia|].
    exists h2. split; [exact E2|]. split; [exact L2|]. intros i. rewrite N2, N1. cbn [filter].
    rewrite of_size_log2 by exact H0. cbn [snd].
    destruct (Nat.eqb_spec i (Z.to_nat (Z.of_N (N.log2 (blen v))))) as [->|Hi].
    + replace (N.log2 (blen v) =? N.of_nat (Z.to_nat (Z.of_N (N.log2 (blen v))))) with true by lia. rewrite blen_cons. lia.
    + replace (N.log2 (blen v) =? N.of_nat i) with false by lia. lia.
  - apply IH; assumption.
Qed.

Lemma count_items calls : blen (filter is_item calls) = blen (items calls).
Proof. induction calls as [|[k v|x y] calls IH]; cbn [filter is_item items]; [reflexivity|rewrite !blen_cons; lia|exact IH]. Qed.

(** ** The number of buckets *)
Lemma round_even_ge a b : a / b <= round_even a b.
Proof. unfold round_even. destruct (2 * (a mod b) <? b), (b <? 2 * (a mod b)), (N.even (a / b)); lia. Qed.
Lemma round_even_le a b : round_even a b <= a / b + 1.
Proof. unfold round_even. destruct (2 * (a mod b) <? b), (b <? 2 * (a mod b)), (N.even (a / b)); lia. Qed.

Lemma to_float_bounds n : 1 <= n -> 1 <= to_float n <= 2 * n.
Proof.
  intros Hn. unfold to_float. set (k := N.log2 n - 23). set (p := 2 ^ k).
  assert (Hp : 1 <= p) by (unfold p; pose proof (N.pow_nonzero 2 k ltac:(discriminate)); lia).
  assert (Hpn : p <= n).
  { unfold p. transitivity (2 ^ N.log2 n); [apply N.pow_le_mono_r; [discriminate|unfold k; lia]|].
    apply N.log2_spec. lia. }
  pose proof (round_even_ge n p) as G. pose proof (round_even_le n p) as L.
  assert (Q : 1 <= n / p) by (apply N.div_le_lower_bound; lia).
  assert (M : p * (n / p) <= n) by (apply N.mul_div_le; lia).
  split; nia.
Qed.

Lemma ceil_div_float_bounds a b : 1 <= a -> 1 <= b -> 1 <= ceil_div_float a b <= 2 * a.
Proof.
  intros Ha Hb. unfold ceil_div_float. replace (a =? 0) with false by lia.
  destruct (a <? b) eqn:Eab; [lia|]. apply N.ltb_ge in Eab. cbv zeta.
  assert (Q : 1 <= a / b) by (apply N.div_le_lower_bound; lia).
  assert (QA : a / b <= a) by (apply N.div_le_upper_bound; nia).
  set (x := N.log2 (a / b)). destruct (x <=? 23) eqn:Ex.
  - set (s := 2 ^ (23 - x)). assert (Hs : 1 <= s) by (unfold s; pose proof (N.pow_nonzero 2 (23 - x) ltac:(discriminate)); lia).
    pose proof (round_even_ge (a * s) b) as G. pose proof (round_even_le (a * s) b) as L.
    assert (G1 : s <= a * s / b) by (apply N.div_le_lower_bound; nia).
    assert (L1 : a * s / b <= a * s) by (apply N.div_le_upper_bound; nia).
    set (r := round_even (a * s) b) in *. split.
    + apply N.div_le_lower_bound; lia.
    + assert (Z : (r + (s - 1)) / s <= a + 1) by (apply N.div_le_upper_bound; nia). lia.
  - set (s := 2 ^ (x - 23)). assert (Hs : 1 <= s) by (unfold s; pose proof (N.pow_nonzero 2 (x - 23) ltac:(discriminate)); lia).
    assert (Sq : s <= a / b).
    { unfold s. transitivity (2 ^ x); [apply N.pow_le_mono_r; [discriminate|lia]|]. apply N.log2_spec. lia. }
    pose proof (round_even_ge a (b * s)) as G. pose proof (round_even_le a (b * s)) as L.
    assert (BA : b * (a / b) <= a) by (apply N.mul_div_le; lia).
    assert (BS : b * s <= a) by nia.
    assert (G1 : 1 <= a / (b * s)) by (apply N.div_le_lower_bound; nia).
    assert (M : b * s * (a / (b * s)) <= a) by (apply N.mul_div_le; nia).
    set (r := round_even a (b * s)) in *. split; [nia|].
    assert (s * (a / (b * s)) <= a) by nia. nia.
Qed.

Lemma tool_buckets_bounds n : 1 <= n -> 1 <= tool_buckets n <= 8 * n.
Proof.
  intros Hn. unfold tool_buckets. pose proof (to_float_bounds n Hn).
  pose proof (ceil_div_float_bounds (2 * to_float n) 227 ltac:(lia) ltac:(lia)). lia.
Qed.

Lemma tool_args_good salt n buffer : salt < 2 ^ 64 -> 1 <= n -> n < 2 ^ 48 -> good_rekey (tool_rekey_args salt n buffer).
Proof.
  intros Hs Hn Hm. unfold good_rekey, tool_rekey_args. cbn [ra_salt ra_block_size ra_load_factor ra_buckets].
  pose proof (tool_buckets_bounds n Hn) as [A B]. split; [exact Hs|]. split; [lia|]. split; [lia|]. split; [exact A|].
  change (2 ^ 48) with 281474976710656 in Hm. change (2 ^ 64) with 18446744073709551616. lia.
Qed.

(** ** visit, then rekey *)
Lemma kvs_sized p recs : Forall (drec_ok p) recs -> Forall sized (kvs recs).
Proof.
  induction 1 as [|[k v|es sp] l [H|[_ H]] Hr IH]; cbn [kvs]; auto; try contradiction.
  constructor; [|exact IH]. destruct H as (_ & H2 & H3). unfold sized. cbn [snd]. 
  change (2 ^ 64) with 18446744073709551616. lia.
Qed.

Lemma visit_then_rekey e a l w s d salt buffer :
  iter_ok e -> good_args a -> Forall (valid_op (ca_key_size a)) l -> lived e a l w s -> w_dat w = Some d -> salt < 2 ^ 64 ->
  let W := written sempty [] [] l in
  let closed := World (Some d) (w_key w) None in
  (exists hist, run (tool e salt "visit" (Options true false false None None)) closed =
     (closed, Answer true
        [LDat FDat (fdec (blen d)) (DatHeader magic_dat currentVersion (ca_uid a) (ca_appnum a) (ca_key_size a));
         LNumber "value_count" (fdec (blen W)); LSizes (fhist hist)] []) /\
     length hist = 64%nat /\ forall i, nth i hist 0 = blen (filter (of_size i) W)) /\
  (W <> [] ->
   (exists w1 w2 s2,
      run (tool e salt "rekey" (Options true true true (Some (blen W)) (Some buffer))) (World (Some d) None None)
        = (w1, Answer true [] []) /\
      run (store_open e) w1 = (w2, Ok s2) /\
      forall k, blen k = ca_key_size a -> snd (run (store_fetch e s2 k) w2) =
        match spec_durable sempty sempty l k with Some v => Ok v | None => Er key_not_found end) \/
   (exists w1, run (tool e salt "rekey" (Options true true true (Some (blen W)) (Some buffer))) (World (Some d) None None)
        = (w1, Answer false [] [LError "rekey" EAssert]) /\ near_limit w1)).
Proof.
  intros Hit Ha Hv Hl Hd Hs W closed. destruct (good_args_ok a Ha) as (Hp & _).
  destruct (lived_written e a l w s Ha Hit Hv Hl) as (recs & T & i & b & Hi & _ & Hk). fold W in Hk.
  pose proof (si_disk _ _ _ _ _ _ Hi) as Hdk. pose proof (dk_dat _ _ _ _ _ Hdk) as Hd2.
  change (wget w FDat) with (w_dat w) in Hd2. rewrite Hd2 in Hd.
  assert (X : d = db_hdr (dbp_of a) ++ enc_recs recs) by congruence. subst d. clear Hd.
  assert (Hc : disk e (dbp_of a) recs T closed).
  { destruct Hdk. unfold closed. constructor; auto. }
  assert (Hdur : forall k, spec_durable sempty sempty l k = kfind W k).
  { intros k. destruct (written_durable e a l w s Ha Hit Hv Hl) as [Nd Hin]. fold W in Nd, Hin.
    destruct (spec_durable sempty sempty l k) as [v|] eqn:E.
    - symmetry. apply kfind_In; [exact Nd|]. apply Hin. exact E.
    - destruct (kfind W k) as [v|] eqn:F; [|reflexivity]. apply kfind_In in F; [|exact Nd]. apply Hin in F. congruence. }
  destruct Hdk as [_ _ Hr Hn He _ _ Hlow]. split.
  - assert (Hsz : Forall sized W) by (rewrite <- Hk; exact (kvs_sized _ _ Hr)).
    destruct (visit_disk e _ (fun _ _ _ => None) recs T closed Hp Hc) as (d' & Hd' & Hrun & _).
    change (w_dat closed) with (Some (db_hdr (dbp_of a) ++ enc_recs recs)) in Hd'.
    assert (X : d' = db_hdr (dbp_of a) ++ enc_recs recs) by congruence. subst d'. clear Hd'.
    destruct (spec_visit _ _ _ _ _) as [t o] eqn:Es.
    apply spec_visit_calls in Es; [|apply (no_error_progress _ []); apply no_error_nil].
    destruct o as [er|]; [destruct Es as (bf & k & v & rest & _ & E & _); discriminate E|].
    destruct Es as [Es _]. rewrite values_kvs, Hk in Es. cbn [items app] in Es. cbn [finish] in Hrun.
    destruct (count_sizes t (repeat 0 64)) as (hist & Eh & Lh & Nh); [rewrite Es; exact Hsz|reflexivity|].
    exists hist. split.
    + unfold tool. cbn [String.eqb Ascii.eqb Bool.eqb]. unfold tool_visit. cbn [o_dat negb].
      erewrite run_bind_eq.
      2:{ erewrite run_ebind_ok by (eapply run_open; apply (dk_dat _ _ _ _ _ Hc)).
          erewrite run_ebind_ok by (eapply run_size; apply (dk_dat _ _ _ _ _ Hc)).
          erewrite run_ebind_ok by (apply (read_dh (dbp_of a) Hp _ (enc_recs recs)); reflexivity). reflexivity. }
      cbv iota beta zeta. rewrite (run_bind_eq _ _ _ _ _ Hrun). cbv iota beta.
      rewrite Eh. rewrite count_items, Es. reflexivity.
    + split; [exact Lh|]. intros j. rewrite Nh, Es. rewrite nth_repeat_0. lia.
  - intros HW.
    assert (H1 : 1 <= blen W) by (destruct W; [contradiction|rewrite blen_cons; lia]).
    assert (H2 : blen W < 2 ^ 48).
    { pose proof (data_short e _ recs Hp Hr He Hlow) as Q. rewrite blen_app in Q.
      pose proof (kvs_short (dbp_of a) recs Hr) as Q2. rewrite Hk in Q2. change (2 ^ 48) with 281474976710656. lia. }
    pose proof (tool_args_good salt (blen W) buffer Hs H1 H2) as Hg.
    assert (Hr' : Forall (drec_ok (dbp_of a)) (recs ++ [])) by (rewrite app_nil_r; exact Hr).
    assert (Hn' : NoDup (map fst (kvs (recs ++ [])))) by (rewrite app_nil_r; exact Hn).
    assert (He' : Forall entry_ok (dents e (dbp_of a) (recs ++ []))) by (rewrite app_nil_r; exact He).
    assert (Hl' : low 0 (recs ++ [])) by (rewrite app_nil_r; exact Hlow).
    assert (Et : forall w0 w1 r, run (rekey e (tool_rekey_args salt (blen W) buffer)) w0 = (w1, r) ->
      run (tool e salt "rekey" (Options true true true (Some (blen W)) (Some buffer))) w0 =
      (w1, match r with Er er => Answer false [] [LError "rekey" er] | Ok _ => Answer true [] [] end)).
    { intros w0 w1 r E. unfold tool. cbn [String.eqb Ascii.eqb Bool.eqb]. unfold tool_rekey.
      cbn [o_dat o_key o_log o_count o_buffer negb].
      rewrite (run_bind_eq _ _ _ _ _ E). destruct r; reflexivity. }
    destruct (rekey_prefix e _ _ recs [] Hp Hg Hr' Hn' He' Hl') as [(w1 & t & w2 & s2 & R & O & F)|(w1 & R & Nl)].
    + left. exists w1, w2, s2. split; [exact (Et _ _ _ R)|]. split; [exact O|].
      intros k Hk'. rewrite (F k Hk'), Hdur, Hk. reflexivity.
    + right. exists w1. split; [exact (Et _ _ _ R)|exact Nl].
Qed.

(** ** The exit status *)
Definition all_files (o : options) : Prop := o_dat o = true /\ o_key o = true /\ o_log o = true.

Lemma status_recover e salt o w : all_files o ->
  run (tool e salt "recover" o) w =
    (fst (run (recover e) w),
     match snd (run (recover e) w) with Ok _ => Answer true [] [] | Er er => Answer false [] [LError "recover" er] end).
Proof.
  intros (H1 & H2 & H3). unfold tool. cbn [String.eqb Ascii.eqb Bool.eqb]. unfold tool_recover. rewrite H1, H2, H3. cbn [negb orb].
  destruct (run (recover e) w) as [w1 r] eqn:E. rewrite (run_bind_eq _ _ _ _ _ E). destruct r; reflexivity.
Qed.

Lemma status_rekey e salt o count buffer w : all_files o -> o_count o = Some count -> o_buffer o = Some buffer ->
  let x := run (rekey e (tool_rekey_args salt count buffer)) w in
  run (tool e salt "rekey" o) w =
    (fst x, match snd x with Ok _ => Answer true [] [] | Er er => Answer false [] [LError "rekey" er] end).
Proof.
  intros (H1 & H2 & H3) H4 H5 x. unfold tool. cbn [String.eqb Ascii.eqb Bool.eqb]. unfold tool_rekey. rewrite H1, H2, H3, H4, H5.
  cbn [negb]. unfold x. destruct (run (rekey e (tool_rekey_args salt count buffer)) w) as [w1 r] eqn:E.
  rewrite (run_bind_eq _ _ _ _ _ E). destruct r; reflexivity.
Qed.

Lemma status_verify e salt o w : o_dat o = true -> o_key o = true ->
  let x := run (verify e match o_buffer o with Some b => b | None => 0 end) w in
  run (tool e salt "verify" o) w =
    (fst x, match snd x with Ok v => Answer true [LVerified v] [] | Er er => Answer false [] [LError "verify" er] end).
Proof.
  intros H1 H2 x. unfold tool. cbn [String.eqb Ascii.eqb Bool.eqb]. unfold tool_verify. rewrite H1, H2. cbn [negb].
  unfold x. destruct (run (verify e _) w) as [w1 r] eqn:E. rewrite (run_bind_eq _ _ _ _ _ E). destruct r; reflexivity.
Qed.

Lemma status_visit e salt o w : o_dat o = true ->
  t_ok (snd (run (tool e salt "visit" o) w)) = true ->
  exists calls, snd (run (visit (fun _ _ _ => None)) w) = Ok (calls, Ok tt).
Proof.
  intros Ho. unfold tool. cbn [String.eqb Ascii.eqb Bool.eqb]. unfold tool_visit. rewrite Ho. cbn [negb].
  match goal with |- context [bind ?p _] => destruct (run p w) as [w1 r] eqn:E1 end.
  assert (Hw : w1 = w).
  { destruct (wget w FDat) as [c|] eqn:Ed.
    - rewrite (run_ebind_ok _ _ _ _ _ (run_open _ _ _ Ed)), (run_ebind_ok _ _ _ _ _ (run_size _ _ _ Ed)) in E1.
      unfold read_dat_header in E1. destruct (N.le_gt_cases dat_hdr_size (blen c)) as [L|L].
      + rewrite (run_ebind_ok _ _ w w (dec_dat_header (bsub 0 dat_hdr_size c))) in E1.
        * cbn in E1. congruence.
        * erewrite run_ebind_ok by (apply (run_read _ 0 _ _ _ Ed); lia). reflexivity.
      + rewrite (run_ebind_er _ _ w w short_read) in E1; [congruence|]. apply run_ebind_er.
        apply (run_read_short _ _ _ _ _ Ed); [discriminate|lia].
    - rewrite (run_ebind_er _ _ _ _ _ (run_open_none _ _ Ed)) in E1. congruence. }
  subst w1. rewrite (run_bind_eq _ _ _ _ _ E1). destruct r as [[n h]|er]; [|discriminate].
  cbv iota beta zeta. destruct (run (visit (fun _ _ _ => None)) w) as [w2 [[calls [[]|er]]|er]] eqn:E2;
    rewrite (run_bind_eq _ _ _ _ _ E2); try discriminate.
  intros _. exists calls. reflexivity.
Qed.

Lemma visit_success w calls : (forall d, w_dat w = Some d -> bytes_ok d /\ blen d < 2 ^ 64) ->
  snd (run (visit (fun _ _ _ => None)) w) = Ok (calls, Ok tt) ->
  run (visit (fun _ _ _ => None)) w = (w, Ok (calls, Ok tt)) /\ Forall sized (items calls) /\
  exists d, w_dat w = Some d /\ 92 <= blen d.
Proof.
  intros Hw Hr. destruct (visit_refused (fun _ _ _ => None) w) as (R1 & R2 & R3).
  destruct (w_dat w) as [d|] eqn:Ed; [|rewrite (R1 eq_refl) in Hr; discriminate Hr].
  destruct (Hw d eq_refl) as [Hb Hs].
  destruct (N.lt_ge_cases (blen d) 92) as [L|L]; [rewrite (R2 d eq_refl L) in Hr; discriminate Hr|].
  destruct (first_failed (dat_checks d)) as [er|] eqn:Ec; [rewrite (R3 d er eq_refl Hb L Ec) in Hr; discriminate Hr|].
  destruct (visit_any (fun _ _ _ => None) w d Ed Hb L Ec Hs) as (c & r & R & _ & Hz & _).
  rewrite R in Hr. cbn [snd] in Hr. assert (c = calls) by congruence. assert (r = Ok tt) by congruence. subst c r.
  split; [exact R|]. split; [|exists d; auto]. eapply Forall_impl; [|exact Hz].
  intros [k v] (_ & A & B). split; [exact A|]. change (2 ^ 32) with 4294967296 in B. change (2 ^ 64) with 18446744073709551616. lia.
Qed.

Lemma status_visit_iff e salt o w : o_dat o = true ->
  (forall d, w_dat w = Some d -> bytes_ok d /\ blen d < 2 ^ 64) ->
  (t_ok (snd (run (tool e salt "visit" o) w)) = true <->
   exists calls, snd (run (visit (fun _ _ _ => None)) w) = Ok (calls, Ok tt)).
Proof.
  intros Ho Hw. split; [apply status_visit; exact Ho|]. intros (calls & Hr).
  destruct (visit_success w calls Hw Hr) as (R & Hz & d & Ed & L).
  unfold tool. cbn [String.eqb Ascii.eqb Bool.eqb]. unfold tool_visit. rewrite Ho. cbn [negb].
  match goal with |- context [bind ?p _] => assert (E1 : run p w = (w, Ok (blen d, dec_dat_header (bsub 0 dat_hdr_size d)))) end.
  { rewrite (run_ebind_ok _ _ _ _ _ (run_open FDat w d Ed)), (run_ebind_ok _ _ _ _ _ (run_size FDat w d Ed)).
    unfold read_dat_header. rewrite (run_ebind_ok _ _ w w (dec_dat_header (bsub 0 dat_hdr_size d))); [reflexivity|].
    erewrite run_ebind_ok by (apply (run_read FDat 0 _ _ _ Ed); unfold dat_hdr_size; lia). reflexivity. }
  rewrite (run_bind_eq _ _ _ _ _ E1). cbv iota beta zeta. rewrite (run_bind_eq _ _ _ _ _ R). cbv iota beta zeta.
  destruct (count_sizes calls (repeat 0 64) Hz (repeat_length _ _)) as (h & E & _). rewrite E. reflexivity.
Qed.

Lemma status_info e salt o w : o_dat o = true \/ o_key o = true \/ o_log o = true ->
  t_ok (snd (run (tool e salt "info" o) w)) = true /\ t_err (snd (run (tool e salt "info" o) w)) = [].
Proof.
  intros Ho. unfold tool. cbn [String.eqb Ascii.eqb Bool.eqb]. unfold tool_info.
  replace (negb (o_dat o) && negb (o_key o) && negb (o_log o)) with false
    by (destruct (o_dat o), (o_key o), (o_log o); intuition congruence).
  destruct (run (given (o_dat o) FDat) w) as [w1 a] eqn:E1. rewrite (run_bind_eq _ _ _ _ _ E1).
  destruct (run (given (o_key o) FKey) w1) as [w2 b] eqn:E2. rewrite (run_bind_eq _ _ _ _ _ E2).
  destruct (run (given (o_log o) FLog) w2) as [w3 c] eqn:E3. rewrite (run_bind_eq _ _ _ _ _ E3).
  split; reflexivity.
Qed.

(** ** What info shows *)
Lemma info_shows e a l w s d kf salt :
  iter_ok e -> good_args a -> Forall (valid_op (ca_key_size a)) l -> lived e a l w s ->
  w_dat w = Some d -> w_key w = Some kf ->
  let closed := World (Some d) (Some kf) None in
  exists h, run (tool e salt "info" (Options true true false None None)) closed =
    (closed, Answer true
      [LDat FDat (fdec (blen d)) (DatHeader magic_dat currentVersion (ca_uid a) (ca_appnum a) (ca_key_size a));
       LKey FKey (fdec (blen kf)) h] []) /\
    kh_type h = magic_key /\ kh_version h = currentVersion /\
    kh_uid h = ca_uid a /\ kh_appnum h = ca_appnum a /\ kh_key_size h = ca_key_size a /\
    kh_salt h = ca_salt a /\ kh_pepper h = pepper (e_hasher e) (ca_salt a) /\ kh_block_size h = ca_block_size a /\
    blen kf = (kh_buckets h + 1) * ca_block_size a.
Proof.
  intros Hit Ha Hv Hl Hd Hkf closed. destruct (good_args_ok a Ha) as (Hp & _).
  destruct (lived_written e a l w s Ha Hit Hv Hl) as (recs & T & i & b & Hi & _ & _).
  pose proof (si_disk _ _ _ _ _ _ Hi) as Hdk.
  pose proof (dk_dat _ _ _ _ _ Hdk) as Hd2. change (wget w FDat) with (w_dat w) in Hd2.
  pose proof (dk_key _ _ _ _ _ Hdk) as Hk2. change (wget w FKey) with (w_key w) in Hk2.
  assert (X : d = db_hdr (dbp_of a) ++ enc_recs recs) by congruence.
  assert (Y : kf = kfile (db_block_size (dbp_of a)) (db_kb e (dbp_of a)) T) by congruence.
  assert (Hc : disk e (dbp_of a) recs T closed).
  { unfold closed. rewrite X, Y. destruct Hdk. constructor; auto. }
  pose proof (kfile_len e _ Hp _ _ _ Hdk) as HL. rewrite <- Y in HL.
  assert (Fd : wget closed FDat = Some d) by reflexivity. assert (Fk : wget closed FKey = Some kf) by reflexivity.
  assert (B8 : bsub 0 8 d = magic_dat) by (rewrite X; reflexivity).
  assert (K8 : bsub 0 8 kf = magic_key) by (rewrite Y; reflexivity).
  assert (L8 : dat_hdr_size <= blen d).
  { rewrite X, blen_app. unfold db_hdr. rewrite blen_dat_header. lia. }
  exists (db_kh e (dbp_of a) (blen T)).
  assert (Ed : run (info_file FDat) closed = (closed, LDat FDat (fdec (blen d)) (db_dh (dbp_of a)))).
  { unfold info_file. erewrite run_bind_eq.
    2:{ erewrite run_ebind_ok by (apply (run_open _ _ _ Fd)). erewrite run_ebind_ok by (apply (run_size _ _ _ Fd)).
        unfold dat_hdr_size in L8. replace (blen d <? 8) with false by lia.
        erewrite run_ebind_ok by (apply (run_read _ 0 8 _ _ Fd); lia).
        rewrite B8. rewrite beq_refl. 
        pose proof (read_dh (dbp_of a) Hp closed (enc_recs recs)) as R. rewrite Fd, X in R. specialize (R eq_refl).
        unfold read_dat_header in R.
        erewrite run_ebind_ok in R by (apply (run_read _ 0 _ _ _ Fd); unfold dat_hdr_size; lia).
        erewrite run_ebind_ok by (apply (run_read _ 0 _ _ _ Fd); unfold dat_hdr_size; lia).
        cbn [run pret] in R |- *. assert (Q : dec_dat_header (bsub 0 dat_hdr_size d) = db_dh (dbp_of a)) by congruence.
        rewrite Q. reflexivity. }
    reflexivity. }
  assert (Ek : run (info_file FKey) closed = (closed, LKey FKey (fdec (blen kf)) (db_kh e (dbp_of a) (blen T)))).
  { assert (L9 : key_hdr_size <= blen kf).
    { rewrite HL. pose proof (block_min _ (p_cap (dbp_of a) Hp)). unfold key_hdr_size in *. nia. }
    unfold info_file. erewrite run_bind_eq.
    2:{ erewrite run_ebind_ok by (apply (run_open _ _ _ Fk)). erewrite run_ebind_ok by (apply (run_size _ _ _ Fk)).
        unfold key_hdr_size in L9. replace (blen kf <? 8) with false by lia.
        erewrite run_ebind_ok by (apply (run_read _ 0 8 _ _ Fk); lia).
        rewrite K8. rewrite beq_refl. change (beq magic_key magic_dat) with false. cbv iota.
        pose proof (read_kh e (dbp_of a) Hp recs T closed Hc) as R. unfold read_key_header in R.
        erewrite run_ebind_ok in R by (apply (run_read _ 0 _ _ _ Fk); unfold key_hdr_size; lia).
        erewrite run_ebind_ok in R by (apply (run_size _ _ _ Fk)).
        erewrite run_ebind_ok by (apply (run_read _ 0 _ _ _ Fk); unfold key_hdr_size; lia).
        erewrite run_ebind_ok by (apply (run_size _ _ _ Fk)).
        cbn [run pret] in R |- *.
        assert (Q : dec_key_header (bsub 0 key_hdr_size kf) (blen kf) = db_kh e (dbp_of a) (blen T)) by congruence.
        rewrite Q. reflexivity. }
    reflexivity. }
  split; [|repeat split; exact HL].
  unfold tool. cbn [String.eqb Ascii.eqb Bool.eqb]. unfold tool_info. cbn [o_dat o_key o_log negb andb given].
  erewrite run_bind_eq by (rewrite (run_bind_eq _ _ _ _ _ Ed); reflexivity).
  erewrite run_bind_eq by (rewrite (run_bind_eq _ _ _ _ _ Ek); reflexivity).
  reflexivity.
Qed.
