(** Concrete histories with stops, used to show that hypotheses can be met. *)
From Verif Require Import Model.Bytes Model.Err Model.Field Model.Format Model.IO Model.BulkIO
  Model.Bucket Model.Pool Model.Recover Model.Create Model.Store Model.History Model.Crash Model.Events
  Spec SpecCrash Proofs.BytesFacts Proofs.IOFacts Proofs.SafeFacts Proofs.Witness Props.Samples.

(** Thirty inserts, a flush, two pending inserts. *)
Definition pending_acts : list act :=
  map ACall (sample_inserts 30 ++
    [OpFlush; OpInsert (sample_key 77) [7; 7]; OpInsert (sample_key 78) [8]]).
Definition pending_history := Eval vm_compute in history sample_env sample_args pending_acts.
Definition pending_files := Eval vm_compute in
  match pending_history with Some (w, _, _) => w | None => no_files end.
Definition pending_store := Eval vm_compute in
  match pending_history with
  | Some (_, s, _) => s
  | None => Store (dec_key_header [] 0) pool_empty pool_empty [] 0 0 0 0 None
  end.
Definition pending_outs := Eval vm_compute in
  match pending_history with Some (_, _, os) => os | None => [] end.

Lemma pending_computed :
  history sample_env sample_args pending_acts = Some (pending_files, pending_store, pending_outs).
Proof. vm_compute. reflexivity. Qed.

Lemma pending_valid :
  Forall (fun ev => valid_op (ca_key_size sample_args) (event_op ev)) (map act_event pending_acts).
Proof. repeat constructor. Qed.


(** The flush has written its log and is writing a bucket, of which half is
    garbage. *)
Definition torn_program := Eval vm_compute in
  match after_ops 12 (op_prog sample_env pending_store OpFlush) pending_files with
  | Some (_, w) => w
  | None => no_files
  end.
Definition torn_files : world := Eval vm_compute in
  match w_key torn_program with
  | Some k => wset torn_program FKey (Some (bwrite 520 (repeat 238 52 ++ repeat 0 52) k))
  | None => torn_program
  end.

Lemma torn_crash S : on_disk S pending_files ->
  crash log_in_order (op_prog sample_env pending_store OpFlush) pending_files S torn_files.
Proof.
  intros Hd.
  destruct (after_ops 12 (op_prog sample_env pending_store OpFlush) pending_files) as [[q w1]|] eqn:E.
  2:{ exfalso. assert (X : match after_ops 12 (op_prog sample_env pending_store OpFlush) pending_files with
        | None => false | Some _ => true end = true) by (vm_compute; reflexivity).
      rewrite E in X. discriminate X. }
  assert (X : match after_ops 12 (op_prog sample_env pending_store OpFlush) pending_files with
     | Some (Do (IoWrite FKey false 520 d) _, w) => (blen d =? 104) = true /\ w = torn_program
     | _ => False end) by (vm_compute; split; reflexivity).
  rewrite E in X. destruct q as [r|[ | | | | |[] [] off d| | ] k]; try contradiction.
  destruct (N.eq_dec off 520) as [-> |Hne].
  2:{ exfalso. clear - X Hne.
      repeat match type of X with match ?y with _ => _ end => destruct y; try contradiction end. }
  destruct X as [X ->]. apply N.eqb_eq in X.
  assert (Ek : w_key torn_program <> None) by (vm_compute; discriminate).
  destruct (w_key torn_program) as [kf|] eqn:Ekf; [|contradiction]. clear Ek.
  replace torn_files with (wset torn_program FKey (Some (bwrite 520 (repeat 238 52 ++ repeat 0 52) kf))).
  - eapply crash_writing; [exact E|exact Hd|reflexivity|exact Ekf|reflexivity|].
    replace (blen d) with (blen (repeat 238 52 ++ repeat 0 52)) by (rewrite X; reflexivity).
    apply torn_write_full.
  - unfold torn_files. pose proof Ekf as Ekf'. vm_compute in Ekf'. injection Ekf' as <-. vm_compute. reflexivity.
Qed.

(** A history with two stops: one with recoveries stopped twice, one without. *)
Definition stops_acts : list act :=
  map ACall (sample_inserts 12) ++ [ACall OpFlush; ACall (OpInsert (sample_key 77) [7; 7]);
    AStop OpFlush 11 [4%nat; 9%nat]; ACall (OpFetch (sample_key 77)); ACall (OpFetch (sample_key 3));
    ACall (OpInsert (sample_key 77) [7]); ACall OpFlush; ACall (OpInsert (sample_key 78) [8]);
    AStop OpFlush 17 []; ACall (OpFetch (sample_key 77)); ACall (OpFetch (sample_key 78))].
Definition stops_history := Eval vm_compute in history sample_env sample_args stops_acts.
Lemma stops_computed :
  match history sample_env sample_args stops_acts with
  | Some (_, _, os) => os = repeat OInserted 12 ++ [ODone; OInserted; ONotFound; OFound (sample_val 3);
      OInserted; ODone; OInserted; OFound [7]; OFound [8]]
  | None => False
  end.
Proof. vm_compute. reflexivity. Qed.

(** The same garbage left by a failing write. *)
Lemma torn_failure S : exists s' S',
  fsteps log_in_order (store_flush sample_env pending_store) pending_files S (Ret s') torn_files S' /\
  st_ec s' = Some (EIO 5).
Proof.
  assert (X : match after_ops 12 (store_flush sample_env pending_store) pending_files with
     | Some (Do (IoWrite FKey false off d) k, w) => off = 520 /\ blen d = 104 /\ w = torn_program /\
         match k (RErr (EIO 5)) with Ret s => st_ec s = Some (EIO 5) | _ => False end
     | _ => False end) by (vm_compute; splits; reflexivity).
  destruct (after_ops 12 (store_flush sample_env pending_store) pending_files) as [[q w1]|] eqn:E; [|contradiction].
  destruct q as [r|[ | | | | |[] [] off d| | ] k]; try contradiction.
  destruct X as (-> & X & -> & Y). destruct (k (RErr (EIO 5))) as [s'|] eqn:Ek; [|contradiction].
  destruct (after_steps log_in_order _ _ _ _ _ S E) as (S1 & Hs).
  exists s', (sexec log_in_order (IoWrite FKey false 520 d) torn_program S1). split; [|exact Y].
  assert (Hf : fsteps log_in_order (Do (IoWrite FKey false 520 d) k) torn_program S1 (Ret s') torn_files
     (sexec log_in_order (IoWrite FKey false 520 d) torn_program S1)).
  { apply fsteps_fail with (n := 5) (w1 := torn_files).
    - assert (El : exists kf, wget torn_program FKey = Some kf /\
        torn_files = wset torn_program FKey (Some (bwrite 520 (repeat 238 52 ++ repeat 0 52) kf))).
      { eexists. split; vm_compute; reflexivity. }
      destruct El as (kf & El & ->). cbn [failed]. rewrite El. cbn [andb].
      eexists. split; [reflexivity|]. cbn [log_in_order].
      replace (blen d) with (blen (repeat 238 52 ++ repeat 0 52)) by (rewrite X; reflexivity).
      apply torn_write_full.
    - rewrite Ek. constructor. }
  clear - Hs Hf. induction Hs; [exact Hf|constructor; auto].
Qed.
