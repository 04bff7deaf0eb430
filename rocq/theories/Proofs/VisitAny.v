(** visit() on arbitrary data files. *)
From Verif Require Import Model.Bytes Model.Err Model.Field Model.Format Model.IO
  Model.BulkIO Model.Bucket Model.Recover Model.Visit
  Proofs.BytesFacts Proofs.FieldFacts Proofs.IOFacts Proofs.BulkFacts Proofs.FormatFacts
  Proofs.RefuseFacts SpecFormat SpecHeader SpecVisit SpecVisitAny Proofs.VisitFacts.
Opaque loop.

Ltac bytes_inv := repeat match goal with h : bytes_ok (_ :: _) |- _ => inversion h; clear h; subst
    | h : Forall _ (_ :: _) |- _ => inversion h; clear h; subst end.

Lemma be6_of x : bytes_ok x -> blen x = 6 -> be 6 (rd48 x) = x.
Proof.
  intros H E. destruct x as [|a [|b [|c [|d [|y [|z [|q l]]]]]]]; unfold blen in E; simpl in E; try lia.
  bytes_inv. rewrite rd48_list by auto. unfold be.
  change (seq 0 6) with [0; 1; 2; 3; 4; 5]%nat. cbn [map Nat.sub].
  change (256 ^ N.of_nat 5) with 1099511627776. change (256 ^ N.of_nat 4) with 4294967296.
  change (256 ^ N.of_nat 3) with 16777216. change (256 ^ N.of_nat 2) with 65536.
  change (256 ^ N.of_nat 1) with 256. change (256 ^ N.of_nat 0) with 1.
  repeat (f_equal; try (zify; Z.to_euclidean_division_equations; lia)).
Qed.
Lemma be2_of x : bytes_ok x -> blen x = 2 -> be 2 (rd16 x) = x.
Proof.
  intros H E. destruct x as [|a [|b [|c l]]]; unfold blen in E; simpl in E; try lia.
  bytes_inv. rewrite rd16_list by auto. unfold be.
  change (seq 0 2) with [0; 1]%nat. cbn [map Nat.sub].
  change (256 ^ N.of_nat 1) with 256. change (256 ^ N.of_nat 0) with 1.
  repeat (f_equal; try (zify; Z.to_euclidean_division_equations; lia)).
Qed.

Lemma take_drop n (x : bytes) : x = btake n x ++ bdrop n x.
Proof. unfold btake, bdrop. symmetry. apply firstn_skipn. Qed.

Lemma parsed_cons ks r x l rest : record_ok ks r -> parsed ks x l rest -> parsed ks (image r ++ x) (r :: l) rest.
Proof.
  intros Hr (-> & Hl & H). split; [cbn [flat_map]; rewrite <- app_assoc; reflexivity|]. split; auto.
Qed.

Lemma parse_any ks : forall m x, (length x <= m)%nat -> bytes_ok x -> exists l rest, parsed ks x l rest.
Proof.
  induction m as [|m IH]; intros x Hm Hx.
  { destruct x; [|simpl in Hm; lia]. exists [], []. split; [reflexivity|]. auto. }
  destruct (N.eq_dec (blen x) 0) as [E|E].
  { destruct x; [|rewrite blen_cons in E; lia]. exists [], []. split; [reflexivity|]. auto. }
  destruct (N.lt_ge_cases (blen x) 6) as [L|L].
  { exists [], x. split; [reflexivity|]. split; [constructor|]. right; left. exists short_read. constructor. lia. }
  assert (L6 : blen (btake 6 x) = 6) by (rewrite blen_btake; lia).
  pose proof (be6_of (btake 6 x) (bytes_ok_btake _ _ Hx) L6) as E6.
  pose proof (rd48_lt (btake 6 x) (bytes_ok_btake _ _ Hx) L6) as Hs.
  set (s := rd48 (btake 6 x)) in *. set (y := bdrop 6 x).
  assert (Ex : x = be 6 s ++ y) by (rewrite E6; apply take_drop).
  assert (Ly : blen y = blen x - 6) by (unfold y; rewrite blen_bdrop; lia).
  assert (Hy : bytes_ok y) by (apply bytes_ok_bdrop; exact Hx).
  clearbody s y. clear E6 L6.
  destruct (N.le_gt_cases 4294967296 s) as [G|G].
  { exists [], x. split; [reflexivity|]. split; [constructor|]. right; right. exists s, y. auto. }
  assert (rec : forall r z, record_ok ks r -> x = image r ++ z -> bytes_ok z -> exists l rest, parsed ks x l rest).
  { intros r z Hr -> Hz. pose proof (image_pos r) as P. destruct (IH z) as (l & rest & Hl); auto.
    - rewrite app_length in Hm. unfold blen in P. lia.
    - exists (r :: l), rest. apply parsed_cons; auto. }
  destruct (N.eq_dec s 0) as [->|Hs0].
  - destruct (N.lt_ge_cases (blen y) 2) as [L2|L2].
    { exists [], x. split; [reflexivity|]. split; [constructor|]. right; left. exists short_read.
      rewrite Ex. apply cut_spill_size. exact L2. }
    assert (T2 : blen (btake 2 y) = 2) by (rewrite blen_btake; lia).
    pose proof (be2_of (btake 2 y) (bytes_ok_btake _ _ Hy) T2) as E2.
    pose proof (rd16_lt (btake 2 y) (bytes_ok_btake _ _ Hy) T2) as Hq.
    set (q := rd16 (btake 2 y)) in *.
    assert (Ey : y = be 2 q ++ bdrop 2 y) by (rewrite E2; apply take_drop).
    assert (Hz : bytes_ok (bdrop 2 y)) by (apply bytes_ok_bdrop; exact Hy).
    set (z := bdrop 2 y) in *. clearbody q z.
    destruct (N.lt_ge_cases (blen z) q) as [Lq|Lq].
    { exists [], x. split; [reflexivity|]. split; [constructor|]. right; left. exists short_read.
      rewrite Ex, Ey. apply cut_spill; auto. }
    assert (Lt : blen (btake q z) = q) by (rewrite blen_btake; lia).
    apply (rec (Spill (btake q z)) (bdrop q z)).
    + cbn [record_ok]. rewrite Lt. exact Hq.
    + cbn [image]. rewrite Lt, Ex, Ey, <- !app_assoc, <- take_drop. reflexivity.
    + apply bytes_ok_bdrop. exact Hz.
  - destruct (N.lt_ge_cases (blen y) (ks + s)) as [Lv|Lv].
    { exists [], x. split; [reflexivity|]. split; [constructor|]. right; left. exists EThrow.
      rewrite Ex. apply cut_value; auto. change (2 ^ 32) with 4294967296. lia. }
    assert (Lk : blen (btake ks y) = ks) by (rewrite blen_btake; lia).
    assert (Lt : blen (btake s (bdrop ks y)) = s) by (rewrite blen_btake, blen_bdrop; lia).
    apply (rec (Value (btake ks y) (btake s (bdrop ks y))) (bdrop s (bdrop ks y))).
    + cbn [record_ok]. rewrite Lt. split; auto. change (2 ^ 32) with 4294967296. lia.
    + cbn [image]. rewrite Lt, Ex, <- !app_assoc, <- !take_drop. reflexivity.
    + apply bytes_ok_bdrop, bytes_ok_bdrop. exact Hy.
Qed.

(** ** There is only one way to read a file *)
Lemma be6_inj n m u v : n < 281474976710656 -> m < 281474976710656 -> be 6 n ++ u = be 6 m ++ v -> n = m /\ u = v.
Proof.
  intros Hn Hm E. assert (L6 : forall n, blen (be 6 n) = 6) by (intros; rewrite <- wr48_be; apply blen_wr48).
  pose proof (f_equal (btake 6) E) as E1. pose proof (f_equal (bdrop 6) E) as E2.
  rewrite !btake_app_eq in E1 by (rewrite L6; auto). rewrite !bdrop_app_eq in E2 by (rewrite L6; auto).
  split; auto. rewrite <- !wr48_be in E1. rewrite <- (rd_wr48 n Hn), <- (rd_wr48 m Hm), E1. reflexivity.
Qed.
Lemma be2_inj n m u v : n < 65536 -> m < 65536 -> be 2 n ++ u = be 2 m ++ v -> n = m /\ u = v.
Proof.
  intros Hn Hm E. assert (L6 : forall n, blen (be 2 n) = 2) by (intros; rewrite <- wr16_be; apply blen_wr16).
  pose proof (f_equal (btake 2) E) as E1. pose proof (f_equal (bdrop 2) E) as E2.
  rewrite !btake_app_eq in E1 by (rewrite L6; auto). rewrite !bdrop_app_eq in E2 by (rewrite L6; auto).
  split; auto. rewrite <- !wr16_be in E1. rewrite <- (rd_wr16 n Hn), <- (rd_wr16 m Hm), E1. reflexivity.
Qed.

Lemma rest_no_record ks r x rest : record_ok ks r -> image r ++ x = rest ->
  (rest = [] \/ (exists er, cut_short ks rest er) \/ oversize rest) -> False.
Proof.
  intros Hr E H. pose proof (image_pos r) as P. pose proof (f_equal blen E) as El. rewrite blen_app in El.
  assert (Hr' : exists s y, s < 4294967296 /\ image r ++ x = be 6 s ++ y /\
    match r with
    | Value k v => s = blen v /\ y = k ++ v ++ x /\ 0 < s
    | Spill c => s = 0 /\ y = be 2 (blen c) ++ c ++ x
    end).
  { destruct r as [k v|c]; cbn [image record_ok] in *; change (2 ^ 32) with 4294967296 in *.
    - exists (blen v), (k ++ v ++ x). split; [lia|]. split; [rewrite <- !app_assoc; reflexivity|]. split; [reflexivity|]. split; [reflexivity|lia].
    - exists 0, (be 2 (blen c) ++ c ++ x). split; [lia|]. split; [rewrite <- !app_assoc; reflexivity|]. auto. }
  destruct Hr' as (s & y & Hs & Ey & Hy). rewrite E in Ey.
  destruct H as [-> | [(er & H) | (s' & y' & Hs' & E')]].
  - rewrite blen_nil in El. lia.
  - change (2 ^ 32) with 4294967296 in *. change (2 ^ 16) with 65536 in *.
    destruct H as [z Hz|s' z Hz Hl|z Hz|s' z Hz Hl].
    + lia.
    + apply be6_inj in Ey as [<- <-]; [|lia|lia]. destruct r as [k v|c]; [|lia].
      destruct Hy as (-> & -> & _). destruct Hr as [Hk _]. rewrite !blen_app in Hl. lia.
    + apply be6_inj in Ey as [<- <-]; [|lia|lia]. destruct r as [k v|c]; [lia|].
      destruct Hy as (_ & ->). rewrite blen_app in Hz.
      assert (blen (be 2 (blen c)) = 2) by (rewrite <- wr16_be; apply blen_wr16). lia.
    + apply be6_inj in Ey as [<- Ey]; [|lia|lia]. destruct r as [k v|c]; [lia|].
      destruct Hy as (_ & ->). cbn [record_ok] in Hr. change (2 ^ 16) with 65536 in Hr.
      apply be2_inj in Ey as [-> ->]; [|lia|lia]. rewrite blen_app in Hl. lia.
  - rewrite E' in Ey. change (2 ^ 32) with 4294967296 in *. change (2 ^ 48) with 281474976710656 in *.
    apply be6_inj in Ey as [-> _]; lia.
Qed.

Lemma parsed_unique ks l : forall x l' rest rest', parsed ks x l rest -> parsed ks x l' rest' -> l = l' /\ rest = rest'.
Proof.
  induction l as [|r l IH]; intros x l' rest rest' (E & Hl & H) (E' & Hl' & H').
  - destruct l' as [|r' l']; [cbn [flat_map app] in *; split; congruence|]. exfalso.
    apply Forall_inv in Hl'. cbn [flat_map app] in *. rewrite <- app_assoc in E'.
    apply (rest_no_record ks r' _ rest Hl' (eq_trans (eq_sym E') E) H).
  - destruct l' as [|r' l'].
    + exfalso. apply Forall_inv in Hl. cbn [flat_map app] in *. rewrite <- app_assoc in E.
      apply (rest_no_record ks r _ rest' Hl (eq_trans (eq_sym E) E') H').
    + inversion Hl; inversion Hl'; subst. cbn [flat_map] in E'. rewrite <- !app_assoc in E'.
      apply (image_app_inj ks) in E' as [-> E']; auto.
      destruct (IH (flat_map image l ++ rest) l' rest rest') as [-> ->]; auto; split; auto.
Qed.

Section Any.
Variables (cb : callback) (ks : N) (d : bytes) (w : world).
Hypothesis Hw : wget w FDat = Some d.
Hypothesis Hks : 1 <= ks.
Local Notation step := (visit_step cb ks (blen d)).

(** Part of a record. *)
Lemma visit_part pre rest er t r :
  d = pre ++ rest -> cut_short ks rest er -> at_off d r (blen pre) ->
  run (step (t, r)) w = (w, inr (Ok (t, Er er))).
Proof using Hw Hks.
  intros Hd Hc Hr.
  assert (Ld : blen d = blen pre + blen rest) by (rewrite Hd, blen_app; lia).
  assert (L6 : forall n, blen (be 6 n) = 6) by (intros; rewrite <- wr48_be; apply blen_wr48).
  assert (L2 : forall n, blen (be 2 n) = 2) by (intros; rewrite <- wr16_be; apply blen_wr16).
  unfold visit_step. rewrite (at_eof d w Hw _ _ Hr).
  destruct Hc as [x Hx|s x Hs Hx|x Hx|s x Hs Hx].
  - replace (blen d <=? blen pre) with false by lia.
    rewrite run_bind, (at_short d w Hw _ _ _ Hr) by lia. reflexivity.
  - rewrite blen_app, L6 in Ld. replace (blen d <=? blen pre) with false by lia.
    destruct (at_prepare d w Hw r (blen pre) 6 Hr) as (r1 & Hr1 & Ha1); [lia|].
    assert (E6 : bsub (blen pre) 6 d = be 6 s) by (rewrite Hd; apply bsub_app_eq; auto).
    change (2 ^ 32) with 4294967296 in Hs.
    rewrite run_bind, Hr1, E6. cbv beta iota zeta. rewrite <- wr48_be, rd_size48_wr48 by lia.
    replace (0 <? s) with true by lia. rewrite run_bind, (at_short d w Hw _ _ _ Ha1) by lia. reflexivity.
  - rewrite blen_app, L6 in Ld. replace (blen d <=? blen pre) with false by lia.
    destruct (at_prepare d w Hw r (blen pre) 6 Hr) as (r1 & Hr1 & Ha1); [lia|].
    assert (E6 : bsub (blen pre) 6 d = be 6 0) by (rewrite Hd; apply bsub_app_eq; auto).
    rewrite run_bind, Hr1, E6. cbv beta iota zeta. rewrite <- wr48_be, rd_size48_wr48 by lia.
    change (0 <? 0) with false. cbv iota. rewrite run_bind, (at_short d w Hw _ _ _ Ha1) by lia. reflexivity.
  - rewrite !blen_app, L6, L2 in Ld. replace (blen d <=? blen pre) with false by lia.
    destruct (at_prepare d w Hw r (blen pre) 6 Hr) as (r1 & Hr1 & Ha1); [lia|].
    assert (E6 : bsub (blen pre) 6 d = be 6 0) by (rewrite Hd; apply bsub_app_eq; auto).
    destruct (at_prepare d w Hw r1 (blen pre + 6) 2 Ha1) as (r2 & Hr2 & Ha2); [lia|].
    assert (E2 : bsub (blen pre + 6) 2 d = be 2 s).
    { rewrite Hd, (app_assoc pre). apply bsub_app_eq; rewrite ?blen_app, ?L6; auto. }
    change (2 ^ 16) with 65536 in Hs.
    rewrite run_bind, Hr1, E6. cbv beta iota zeta. rewrite <- wr48_be, rd_size48_wr48 by lia.
    change (0 <? 0) with false. cbv iota. rewrite run_bind, Hr2, E2. cbv beta iota zeta.
    rewrite <- wr16_be, rd_wr16 by lia. rewrite run_bind, (at_short d w Hw _ _ _ Ha2) by lia. reflexivity.
Qed.

Definition ending (t : list vcall) (r : res unit) : Prop :=
  r = Ok tt \/ r = Er short_read \/ r = Er EThrow \/
  exists b k v er, t = b ++ [VItem k v] /\ cb b k v = Some er /\ r = Er er.

(** Whatever follows: visiting it ends. *)
Lemma visit_ends : forall m off t r, at_off d r off -> off <= blen d -> (N.to_nat (blen d - off) <= m)%nat ->
  exists n u o, (n <= S m)%nat /\ loops step n (t, r) w w (Ok (t ++ u, o)) /\
    Forall (well_sized ks) (items u) /\ progress_ok off (blen d) u /\ ending (t ++ u) o.
Proof using Hw Hks.
  induction m as [|m IH]; intros off t r Hr Ho Hm.
  { assert (off = blen d) as -> by lia. exists 1%nat, [], (Ok tt). split; auto. rewrite app_nil_r.
    split; [apply loops_done; apply (visit_end cb ks d w Hw t r Hr)|]. split; [constructor|]. split; [exact I|left; auto]. }
  assert (stop : forall er, run (step (t, r)) w = (w, inr (Ok (t, er))) -> er = Ok tt \/ er = Er short_read \/ er = Er EThrow ->
    exists n u o, (n <= S (S m))%nat /\ loops step n (t, r) w w (Ok (t ++ u, o)) /\
    Forall (well_sized ks) (items u) /\ progress_ok off (blen d) u /\ ending (t ++ u) o).
  { intros er R He. exists 1%nat, [], er. split; [lia|]. rewrite app_nil_r. split; [apply loops_done; exact R|].
    split; [constructor|]. split; [exact I|]. unfold ending. tauto. }
  assert (halt : forall k x er, run (step (t, r)) w = (w, inr (Ok (t ++ [VItem k x], Er er))) -> cb t k x = Some er ->
    well_sized ks (k, x) ->
    exists n u o, (n <= S (S m))%nat /\ loops step n (t, r) w w (Ok (t ++ u, o)) /\
    Forall (well_sized ks) (items u) /\ progress_ok off (blen d) u /\ ending (t ++ u) o).
  { intros k x er R He Hz. exists 1%nat, [VItem k x], (Er er). split; [lia|]. split; [apply loops_done; exact R|].
    split; [constructor; [exact Hz|constructor]|]. split; [exact I|]. right; right; right.
    exists t, k, x, er. auto. }
  assert (next : forall v r' off', run (step (t, r)) w = (w, inl (t ++ v ++ [VProgress off' (blen d)], r')) ->
    at_off d r' off' -> off + 6 <= off' <= blen d -> Forall (well_sized ks) (items v) ->
    (v = [] \/ exists k x, v = [VItem k x]) ->
    exists n u o, (n <= S (S m))%nat /\ loops step n (t, r) w w (Ok (t ++ u, o)) /\
    Forall (well_sized ks) (items u) /\ progress_ok off (blen d) u /\ ending (t ++ u) o).
  { intros v r' off' R Ha Hb Hv Hv'.
    destruct (IH off' (t ++ v ++ [VProgress off' (blen d)]) r' Ha) as (n & u & o & Hn & Hl & Hu & Hp & He); [lia|lia|].
    rewrite <- !app_assoc in Hl. rewrite <- !app_assoc in He. cbn [app] in Hl, He.
    exists (S n), (v ++ VProgress off' (blen d) :: u), o. split; [lia|].
    split; [eapply loops_more; [exact R|rewrite <- ?app_assoc; exact Hl]|].
    split; [|split; [|exact He]].
    - destruct Hv' as [-> | (k & x & ->)]; cbn [app items] in *; auto. inversion Hv; subst. constructor; auto.
    - destruct Hv' as [-> | (k & x & ->)]; cbn [app progress_ok]; split; auto; split; auto; lia. }
  unfold visit_step in stop, next, halt.
  destruct (N.eq_dec off (blen d)) as [->|Hne].
  { apply (stop (Ok tt)); auto. apply (visit_end cb ks d w Hw t r Hr). }
  rewrite (at_eof d w Hw _ _ Hr) in stop, next, halt. replace (blen d <=? off) with false in stop, next, halt by lia.
  destruct (N.lt_ge_cases (blen d) (off + 6)) as [L|L].
  { apply (stop (Er short_read)); auto. rewrite run_bind, (at_short d w Hw _ _ _ Hr) by lia. reflexivity. }
  destruct (at_prepare d w Hw r off 6 Hr) as (r1 & Hr1 & Ha1); [lia|].
  rewrite run_bind, Hr1 in stop, next, halt. cbv beta iota zeta in stop, next, halt.
  set (s := rd_size48 (bsub off 6 d)) in *.
  assert (Hs : s < 4294967296).
  { unfold s, rd_size48. change 4294967295 with (N.ones 32). rewrite N.land_ones.
    change (2 ^ 32) with 4294967296. apply N.mod_lt. discriminate. }
  clearbody s. destruct (N.ltb_spec 0 s) as [Hs0|Hs0].
  - destruct (N.lt_ge_cases (blen d) (off + 6 + (ks + s))) as [L2|L2].
    { apply (stop (Er EThrow)); auto. rewrite run_bind, (at_short d w Hw _ _ _ Ha1) by lia. reflexivity. }
    destruct (at_prepare d w Hw r1 (off + 6) (ks + s) Ha1) as (r2 & Hr2 & Ha2); [lia|].
    rewrite run_bind, Hr2 in stop, next, halt. cbv beta iota zeta in stop, next, halt.
    set (is := bsub (off + 6) (ks + s) d) in *.
    assert (Li : blen is = ks + s) by (unfold is; apply blen_bsub; lia).
    assert (Hsz : well_sized ks (btake ks is, bdrop ks is)).
    { unfold well_sized. cbn [fst snd]. rewrite blen_btake, blen_bdrop, Li. change (2 ^ 32) with 4294967296. lia. }
    destruct (cb t (btake ks is) (bdrop ks is)) as [er|] eqn:Ecb.
    + apply (halt _ _ er) in Hsz; auto.
    + apply (next [VItem (btake ks is) (bdrop ks is)] r2 (off + 6 + (ks + s))); [|exact Ha2|lia|constructor; [exact Hsz|constructor]|right; eauto].
      destruct Ha2 as (_ & _ & _ & ->). cbn [run]. rewrite <- app_assoc. reflexivity.
  - destruct (N.lt_ge_cases (blen d) (off + 6 + 2)) as [L2|L2].
    { apply (stop (Er short_read)); auto. rewrite run_bind, (at_short d w Hw _ _ _ Ha1) by lia. reflexivity. }
    destruct (at_prepare d w Hw r1 (off + 6) 2 Ha1) as (r2 & Hr2 & Ha2); [lia|].
    rewrite run_bind, Hr2 in stop, next, halt. cbv beta iota zeta in stop, next, halt.
    set (q := rd16 (bsub (off + 6) 2 d)) in *. clearbody q.
    destruct (N.lt_ge_cases (blen d) (off + 6 + 2 + q)) as [L3|L3].
    { apply (stop (Er short_read)); auto. rewrite run_bind, (at_short d w Hw _ _ _ Ha2) by lia. reflexivity. }
    destruct (at_prepare d w Hw r2 (off + 6 + 2) q Ha2) as (r3 & Hr3 & Ha3); [lia|].
    rewrite run_bind, Hr3 in stop, next, halt. cbv beta iota zeta in stop, next, halt.
    apply (next [] r3 (off + 6 + 2 + q)); [|exact Ha3|lia|constructor|auto].
    destruct Ha3 as (_ & _ & _ & ->). reflexivity.
Qed.
End Any.

Section File.
Variables (cb : callback) (w : world) (d : bytes).
Let ks := num_at 26 2 d.
Hypothesis Hw : w_dat w = Some d.
Hypothesis Hb : bytes_ok d.
Hypothesis Hl : 92 <= blen d.
Hypothesis Hc : first_failed (dat_checks d) = None.
Hypothesis Hs : blen d < 2 ^ 64.

Lemma visit_begin : exists r, at_off d r 92 /\ 1 <= ks /\
  run (visit cb) w = run (loop (visit_step cb ks (blen d)) ([VProgress 0 (blen d)], r)) w.
Proof using All.
  assert (Ed : d = btake 92 d ++ images [] ++ bdrop 92 d) by (cbn [images flat_map app]; apply take_drop).
  assert (Hh : blen (btake 92 d) = 92) by (rewrite blen_btake; lia).
  assert (S : verify_dat (dh_of d) = Ok tt /\ dh_key_size (dh_of d) = ks /\ 1 <= ks).
  { pose proof (visit_start (btake 92 d) [] (bdrop 92 d) Hh (bytes_ok_btake _ _ Hb)) as X.
    rewrite <- Ed in X. exact (X Hc). }
  destruct S as (Hv & Hk & H1).
  assert (Dl : dat_hdr_size <= blen d) by (unfold dat_hdr_size; lia).
  exists (br_make FDat dat_hdr_size (blen d) visit_read_size). split; [|split; [exact H1|]].
  - unfold at_off. rewrite br_make_offset. split; [|split; [|split]]; try reflexivity.
    apply br_make_inv; [exact Dl|apply N.le_refl].
  - unfold visit. rewrite run_bind.
    rewrite (run_ebind_ok _ _ _ _ _ (run_open FDat w d Hw)).
    rewrite (run_ebind_ok _ _ _ _ _ (read_dat d Dl w Hw)). rewrite Hv.
    rewrite (run_ebind_ok (plift (Ok tt)) _ w w tt eq_refl).
    rewrite (run_ebind_ok _ _ _ _ _ (run_sz FDat w d Hw)). rewrite Hk.
    change (run (pret (ks, blen d)) w) with (w, @Ok (N * N) (ks, blen d)). cbv beta iota zeta.
    reflexivity.
Qed.

(** Any data file with a good header: visiting it ends and changes nothing. *)
Lemma visit_any : exists calls r, run (visit cb) w = (w, Ok (calls, r)) /\
  progress_ok 0 (blen d) calls /\ Forall (well_sized ks) (items calls) /\ ending cb calls r.
Proof using All.
  destruct visit_begin as (r & Ha & H1 & ->).
  destruct (visit_ends cb ks d w Hw H1 (N.to_nat (blen d - 92)) 92 [VProgress 0 (blen d)] r Ha Hl (le_n _))
    as (n & u & o & Hn & Hlp & Hz & Hp & He).
  exists ([VProgress 0 (blen d)] ++ u), o. split; [|split; [|split; [exact Hz|exact He]]].
  - eapply loop_run; eauto. change (2 ^ 64) with 18446744073709551616 in Hs. lia.
  - cbn [app progress_ok]. split; auto. split; [lia|]. clear - Hp. revert Hp. generalize 92 at 1.
    induction u as [|[k v|x y] u IH]; cbn [progress_ok]; intros o0 Hp; auto.
    + eapply IH; eauto.
    + destruct Hp as (A & B & C). split; auto. split; [lia|]. exact C.
Qed.

Lemma visit_parsed l rest : parsed ks (bdrop 92 d) l rest ->
  exists calls r, run (visit cb) w = (w, Ok (calls, r)) /\
  match spec_visit cb (blen d) 92 [VProgress 0 (blen d)] l with
  | (t, Some er) => calls = t /\ r = Er er
  | (t, None) =>
    (rest = [] -> calls = t /\ r = Ok tt) /\
    (forall er, cut_short ks rest er -> calls = t /\ r = Er er) /\
    (oversize rest -> exists u, calls = t ++ u)
  end.
Proof using All.
  intros (E & Hok & Hrest). destruct visit_begin as (r & Ha & H1 & ->).
  assert (Hh : blen (btake 92 d) = 92) by (rewrite blen_btake; lia).
  assert (Ed : d = btake 92 d ++ images l ++ rest) by (unfold images; rewrite <- E; apply take_drop).
  assert (El : blen d = 92 + blen (images l) + blen rest).
  { rewrite Ed at 1. rewrite !blen_app, Hh. lia. }
  destruct (visit_records cb ks d w Hw
    (fun t' w' o => w' = w /\ exists u x, o = Ok (t' ++ u, x) /\
       (rest = [] -> u = [] /\ x = Ok tt) /\ (forall er, cut_short ks rest er -> u = [] /\ x = Er er))
    (S (N.to_nat (blen rest))) l (btake 92 d) rest [VProgress 0 (blen d)] r) as (m & Hm); auto.
  - rewrite Hh. exact Ha.
  - intros t' r' _ Ha'. rewrite Hh in Ha'.
    assert (Ea : blen (btake 92 d ++ images l) = 92 + blen (images l)) by (rewrite blen_app, Hh; reflexivity).
    destruct Hrest as [-> | [(er & Hcut) | Hov]].
    + exists 1%nat, w, (Ok (t', Ok tt)). split; [lia|]. split.
      * apply loops_done. apply (visit_end cb ks d w Hw). rewrite blen_nil, N.add_0_r in El. rewrite El. exact Ha'.
      * split; auto. exists [], (Ok tt). rewrite app_nil_r. split; auto. split; auto.
        intros er Hcut. exfalso. inversion Hcut as [x Hx Ex|s x Hx Hx' Ex|x Hx Ex|s x Hx Hx' Ex]; subst; try discriminate Ex.
        exact (N.lt_irrefl 0 (proj1 Hx)).
    + exists 1%nat, w, (Ok (t', Er er)). split; [lia|]. split.
      * apply loops_done. apply (visit_part cb ks d w Hw H1 (btake 92 d ++ images l) rest er t' r'); auto.
        -- rewrite <- app_assoc. exact Ed.
        -- rewrite Ea. exact Ha'.
      * split; auto. exists [], (Er er). rewrite app_nil_r. split; auto. split.
        -- intros ->. exfalso. inversion Hcut as [x Hx Ex|s x Hx Hx' Ex|x Hx Ex|s x Hx Hx' Ex]; subst; try discriminate Ex.
           exact (N.lt_irrefl 0 (proj1 Hx)).
        -- intros er' Hcut'. split; auto.
           assert (X : run (visit_step cb ks (blen d) (t', r')) w = (w, inr (Ok (t', Er er)))).
           { apply (visit_part cb ks d w Hw H1 (btake 92 d ++ images l) rest er t' r'); auto;
               [rewrite <- app_assoc; exact Ed|rewrite Ea; exact Ha']. }
           assert (Y : run (visit_step cb ks (blen d) (t', r')) w = (w, inr (Ok (t', Er er')))).
           { apply (visit_part cb ks d w Hw H1 (btake 92 d ++ images l) rest er' t' r'); auto;
               [rewrite <- app_assoc; exact Ed|rewrite Ea; exact Ha']. }
           congruence.
    + destruct (visit_ends cb ks d w Hw H1 (N.to_nat (blen rest)) (92 + blen (images l)) t' r' Ha') as
        (n & u & o & Hn & Hlp & _); [lia|lia|].
      exists n, w, (Ok (t' ++ u, o)). split; [exact Hn|]. split; [exact Hlp|]. split; auto.
      exists u, o. split; auto. destruct Hov as (s & y & Hsz & ->).
      change (2 ^ 32) with 4294967296 in Hsz. change (2 ^ 48) with 281474976710656 in Hsz.
      split; [intros X; discriminate X|]. intros er Hcut. exfalso.
      assert (L6 : forall n, blen (be 6 n) = 6) by (intros; rewrite <- wr48_be; apply blen_wr48).
      change (be 6 s ++ y) with (be 6 s ++ y) in Hcut. remember (be 6 s ++ y) as z eqn:Ez.
      destruct Hcut as [x Hx|s' x Hx Hx'|x Hx|s' x Hx Hx'].
      * subst x. rewrite blen_app, L6 in Hx. lia.
      * change (2 ^ 32) with 4294967296 in Hx. apply be6_inj in Ez as [-> _]; lia.
      * apply be6_inj in Ez as [<- _]; lia.
      * apply be6_inj in Ez as [<- _]; lia.
  - rewrite Hh in Hm. pose proof (images_count l) as Hcnt.
    change (2 ^ 64) with 18446744073709551616 in Hs. unfold blen at 1 in Hcnt.
    destruct (spec_visit _ _ _ _ _) as [t' [er|]].
    + destruct Hm as [Hm Hlp]. exists t', (Er er). split; [|split; reflexivity]. eapply loop_run; eauto. lia.
    + destruct Hm as (w' & o & Hm & Hlp & -> & u & x & -> & A & B). exists (t' ++ u), x.
      split; [eapply loop_run; eauto; lia|].
      split; [intros Z; destruct (A Z) as [-> ->]; rewrite app_nil_r; auto|].
      split; [intros er Z; destruct (B er Z) as [-> ->]; rewrite app_nil_r; auto|]. intros _. exists u. reflexivity.
Qed.
End File.
