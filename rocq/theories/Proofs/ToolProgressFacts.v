(** The progress display. *)
From Verif Require Import Model.Bytes Model.Err Model.ToolProgress Model.Field Model.Format Model.IO Model.BulkIO
  Model.Bucket Model.Pool Model.Recover Model.Create Model.Store Model.History Model.Visit
  Spec SpecFormat SpecVisit SpecToolProgress SpecRekey Proofs.BytesFacts Proofs.IOFacts
  Proofs.PoolFacts Proofs.BucketFacts Proofs.BulkFacts Proofs.HashFacts Proofs.Table Proofs.Lookup Proofs.SplitFacts
  Proofs.CommitFacts Proofs.CommitInv Proofs.CommitRun Proofs.StoreInv Proofs.OpenFacts Proofs.HistoryFacts Proofs.LifeFacts Proofs.VisitFacts Proofs.WrittenFacts.
Opaque loop.

Lemma pow64 : 2 ^ 64 = 18446744073709551616. Proof. reflexivity. Qed.
Lemma minus_64 a b : b <= a -> a < 2 ^ 64 -> (a + 2 ^ 64 - b) mod 2 ^ 64 = a - b.
Proof.
  intros H1 H2. rewrite pow64 in *. replace (a + 18446744073709551616 - b) with (a - b + 1 * 18446744073709551616) by lia.
  rewrite N.mod_add by discriminate. apply N.mod_small. lia.
Qed.

(** [s] is the state after a line with [amount] at [elapsed]. *)
Definition state_ok (t0 amount elapsed from now : N) (s : pstate) : Prop :=
  p_prev s = amount /\ p_report s = p_start s + elapsed /\ p_report s <= p_now s /\ p_now s <= now /\ t0 <= p_start s /\
  (if p_estimate s then 0 < amount else amount = 0 /\ elapsed = 0) /\ amount <= from.

Definition slow (t0 total : N) (c : N * (N * N)) : Prop :=
  0 < fst (snd c) -> (total - fst (snd c)) * (fst c - t0) < 2 ^ 63 * fst (snd c).

Lemma calls_ok t0 total l : total < 2 ^ 64 -> forall s amount elapsed from now,
  state_ok t0 amount elapsed from now s -> forward now (map fst l) -> reports from total (map snd l) ->
  Forall (slow t0 total) l ->
  exists lines, progress_calls (Some s) l = Ok lines /\ lines_ok total amount elapsed lines.
Proof.
  intros Ht. induction l as [|[t [x y]] l IH]; intros s amount elapsed from now Hs Hf Hr Hw.
  { exists []. split; [reflexivity|exact I]. }
  cbn [map fst snd forward reports] in Hf, Hr. destruct Hf as [Hf1 Hf]. destruct Hr as (-> & [Hr1 Hr2] & Hr).
  inversion Hw as [|? ? Hw1 Hw2]; subst. destruct Hs as (S1 & S2 & S3 & S4 & S5 & S6 & S7).
  cbn [progress_calls]. unfold progress_call. destruct (N.eqb_spec x 0) as [->|Hx].
  - assert (A0 : amount = 0) by lia. assert (E0 : elapsed = 0) by (destruct (p_estimate s); [lia|tauto]).
    rewrite A0, E0.
    destruct (IH (PState t t t 0 false) 0 0 0 t) as (b & Hb & Lb); [|exact Hf|exact Hr|exact Hw2|].
    { unfold state_ok. cbn [p_prev p_report p_start p_now p_estimate]. lia. }
    exists b. rewrite Hb. split; [reflexivity|exact Lb].
  - destruct (N.eqb_spec t (p_now s)) as [E|E].
    { destruct (IH s amount elapsed x t) as (b & Hb & Lb); [|exact Hf|exact Hr|exact Hw2|].
      { unfold state_ok. destruct (p_estimate s); lia. }
      exists b. rewrite Hb. split; [reflexivity|exact Lb]. }
    cbv zeta.
    assert (Quiet : exists lines, match progress_calls (Some (PState (p_start s) t (p_report s) (p_prev s) (p_estimate s))) l with
        | Ok b => Ok ([] ++ b) | Er er => Er er end = Ok lines /\ lines_ok total amount elapsed lines).
    { destruct (IH (PState (p_start s) t (p_report s) (p_prev s) (p_estimate s)) amount elapsed x t) as (b & Hb & Lb);
        [|exact Hf|exact Hr|exact Hw2|].
      { unfold state_ok. cbn [p_prev p_report p_start p_now p_estimate]. destruct (p_estimate s); lia. }
      exists b. rewrite Hb. split; [reflexivity|exact Lb]. }
    destruct (negb (p_estimate s) && (t - p_start s <? 30 * second)) eqn:E1; [exact Quiet|].
    destruct (p_estimate s && (t - p_report s <? 60 * second)) eqn:E2; [exact Quiet|]. clear Quiet.
    rewrite (minus_64 total x) by lia. rewrite (minus_64 x (p_prev s)) by lia.
    assert (Hrem : (total - x) * (t - p_start s) / x < 2 ^ 63).
    { apply N.div_lt_upper_bound; [exact Hx|]. rewrite N.mul_comm with (n := x).
      apply N.le_lt_trans with ((total - x) * (t - t0)); [apply N.mul_le_mono_l; lia|].
      apply Hw1. cbn [fst snd]. lia. }
    replace (2 ^ 63 <=? (total - x) * (t - p_start s) / x) with false by (symmetry; apply N.leb_gt; exact Hrem).
    destruct (IH (PState (p_start s) t t x true) x (t - p_start s) x t) as (b & Hb & Lb); [|exact Hf|exact Hr|exact Hw2|].
    { unfold state_ok. cbn [p_prev p_report p_start p_now p_estimate]. lia. }
    exists (Shown ((total - x) * (t - p_start s) / x) x total (t - p_start s) (x - p_prev s) (t - p_report s) :: b).
    rewrite Hb. split; [reflexivity|]. cbn [lines_ok sh_total sh_amount sh_more sh_since sh_elapsed sh_remain].
    split; [reflexivity|]. split; [lia|]. split; [lia|]. split; [lia|]. split; [lia|]. split; [|split; [reflexivity|exact Lb]].
    destruct (p_estimate s); cbn [negb andb] in E1, E2.
    + replace (amount =? 0) with false by lia. apply N.ltb_ge in E2. exact E2.
    + replace (amount =? 0) with true by lia. apply N.ltb_ge in E1. lia.
Qed.

Lemma display_ok t0 total l : total < 2 ^ 64 -> forward t0 (map fst l) -> reports 0 total (map snd l) ->
  Forall (slow t0 total) l ->
  exists lines, progress_calls None ((t0, (0, total)) :: l) = Ok lines /\ lines_ok total 0 0 lines.
Proof.
  intros Ht Hf Hr Hw. destruct (calls_ok t0 total l Ht (PState t0 t0 t0 0 false) 0 0 0 t0) as (b & Hb & Lb); auto.
  { unfold state_ok. cbn [p_prev p_report p_start p_now p_estimate]. lia. }
  exists b. split; [|exact Lb].
  change (match progress_calls (Some (PState t0 t0 t0 0 false)) l with Er er => Er er | Ok b => Ok ([] ++ b) end = Ok b).
  rewrite Hb. reflexivity.
Qed.

(** What visit() reports. *)
Lemma spec_visit_first cb total l : forall off t t' o, spec_visit cb total off t l = (t', o) -> exists u, t' = t ++ u.
Proof.
  induction l as [|r l IH]; intros off t t' o Hs; cbn [spec_visit] in Hs.
  - exists []. rewrite app_nil_r. congruence.
  - destruct r as [k v|c].
    + destruct (cb t k v).
      * exists [VItem k v]. congruence.
      * apply IH in Hs as [u ->]. rewrite <- app_assoc. eexists. reflexivity.
    + apply IH in Hs as [u ->]. rewrite <- app_assoc. eexists. reflexivity.
Qed.

Lemma amounts_reports total calls : forall from, progress_ok from total calls -> reports from total (amounts calls).
Proof.
  induction calls as [|[k v|x y] calls IH]; intros from H; cbn [progress_ok amounts reports] in *; auto.
  destruct H as (H1 & H2 & H3). auto.
Qed.

Lemma combine_fst {A B} : forall (a : list A) (b : list B), length a = length b -> map fst (combine a b) = a.
Proof. induction a as [|x a IH]; intros [|y b] H; try discriminate H; [reflexivity|]. cbn [combine map fst]. rewrite IH; auto. Qed.
Lemma combine_snd {A B} : forall (a : list A) (b : list B), length a = length b -> map snd (combine a b) = b.
Proof. induction a as [|x a IH]; intros [|y b] H; try discriminate H; [reflexivity|]. cbn [combine map snd]. rewrite IH; auto. Qed.

Lemma visit_display e a l w s cb d :
  iter_ok e -> good_args a -> Forall (valid_op (ca_key_size a)) l -> lived e a l w s -> w_dat w = Some d ->
  exists calls r (rest : list (N * N)), run (visit cb) w = (w, Ok (calls, r)) /\ amounts calls = (0, blen d) :: rest /\
    forall t0 ts, forward t0 ts -> length ts = length rest ->
      (forall t x y, In (t, (x, y)) (combine ts rest) -> 0 < x -> (blen d - x) * (t - t0) < 2 ^ 63 * x) ->
      exists lines, progress_calls None (combine (t0 :: ts) (amounts calls)) = Ok lines /\ lines_ok (blen d) 0 0 lines.
Proof.
  intros Hit Ha Hv Hl Hd.
  destruct (lived_written e a l w s Ha Hit Hv Hl) as (recs & T & i & b & Hi & _ & Hk).
  destruct (good_args_ok a Ha) as (Hp & _). pose proof (si_disk _ _ _ _ _ _ Hi) as Hdk.
  destruct (visit_disk e _ cb recs T w Hp Hdk) as (d' & Hd' & Hr & Hlen).
  rewrite Hd in Hd'. assert (d' = d) by congruence. subst d'. clear Hd'.
  assert (Hshort : blen d < 2 ^ 64).
  { destruct Hdk as [Hd2 _ Hrr _ He _ _ Hlow]. change (wget w FDat) with (w_dat w) in Hd2.
    pose proof (data_short e _ recs Hp Hrr He Hlow) as Q. assert (X : d = db_hdr (dbp_of a) ++ enc_recs recs) by congruence.
    rewrite <- X in Q. rewrite pow64. lia. }
  destruct (spec_visit _ _ _ _ _) as [t o] eqn:Es.
  destruct (spec_visit_first _ _ _ _ _ _ _ Es) as [u Hu].
  apply spec_visit_progress in Es as [E _].
  - assert (Hc : exists r, run (visit cb) w = (w, Ok (t, r))) by (rewrite Hr; destruct o; cbn [finish]; eauto).
    destruct Hc as [r Hc]. exists t, r, (amounts u). split; [exact Hc|]. subst t. cbn [app amounts].
    split; [reflexivity|]. intros t0 ts Hf Hn Hs. cbn [combine].
    apply amounts_reports in E. cbn [app amounts reports] in E. destruct E as (_ & _ & E).
    apply display_ok; [exact Hshort|rewrite combine_fst; assumption|rewrite combine_snd; assumption|].
    apply Forall_forall. intros [t [x y]] Hin. intros Hx. exact (Hs t x y Hin Hx).
  - cbn [progress_ok]. split; auto. split; auto. lia.
  - cbn [last_progress]. lia.
  - lia.
Qed.

(** The clock. *)
Lemma wake_soon t : clock_wake t <= t + 900000000.
Proof. unfold clock_wake. pose proof (N.mul_div_le t second ltac:(discriminate)). lia. Qed.
