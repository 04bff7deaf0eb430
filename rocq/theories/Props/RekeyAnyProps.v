(** C81: rekey() of arbitrary data files. *)
From Verif Require Import Model.Bytes Model.Err Model.Field Model.Format Model.IO Model.BulkIO
  Model.Bucket Model.Pool Model.Recover Model.Create Model.Store Model.History Model.Visit Model.Rekey Model.RekeyLife
  Spec SpecFormat SpecHeader SpecVisit SpecVisitAny Proofs.BytesFacts Proofs.RefuseFacts Proofs.VisitFacts
  Proofs.VisitAny Proofs.RekeyAny Props.Samples Props.VisitAnyProps.

(** rekey() of any data file with a good header ends and keeps every byte of the file.  It returns
    success, leaving a key file and no log file; or short_read, leaving a key file and a log file; or, with
    a data file within 8 GiB of 2^48 bytes, it fails an assertion. *)
Theorem C81_ends : forall e a d, good_rekey a ->
  bytes_ok d -> 92 <= blen d -> first_failed (dat_checks d) = None -> blen d < 2 ^ 64 ->
  exists w' r, run (rekey e a) (World (Some d) None None) = (w', r) /\
    (exists x, w_dat w' = Some (d ++ x)) /\ w_key w' <> None /\
    (((exists t, r = Ok t) /\ w_log w' = None) \/
     ((r = Er short_read \/ r = Er EAssert /\ near_limit w') /\ w_log w' <> None)).
Proof.
  intros e a d H1 H2 H3 H4 H5. destruct (rekey_any e a d H1 H2 H3 H4 H5) as (w' & r & A & B & C & D & _).
  exists w', r. auto.
Qed.

(** It reports success only if the whole file consists of complete records, or a size that no
    value can have follows the complete records. *)
Theorem C81_success_whole : forall e a d w' t, good_rekey a ->
  bytes_ok d -> 92 <= blen d -> first_failed (dat_checks d) = None -> blen d < 2 ^ 64 ->
  run (rekey e a) (World (Some d) None None) = (w', Ok t) ->
  forall l rest, parsed (num_at 26 2 d) (bdrop 92 d) l rest -> rest = [] \/ oversize rest.
Proof.
  intros e a d w' t H1 H2 H3 H4 H5 R l rest P. destruct (rekey_any e a d H1 H2 H3 H4 H5) as (w1 & r & A & _ & _ & _ & D).
  assert (r = Ok t) by congruence. pose proof P as (_ & _ & [Q|[Q|Q]]); auto. elim (D l rest P Q t). assumption.
Qed.

(** When it reports an error, recover() brings the data file back as it was, and removes the
    other two. *)
Theorem C81_failure_undone : forall e a d w' er, good_rekey a ->
  bytes_ok d -> 92 <= blen d -> first_failed (dat_checks d) = None -> blen d < 2 ^ 64 ->
  run (rekey e a) (World (Some d) None None) = (w', Er er) ->
  exists res, run (recover e) w' = (World (Some d) None None, res) /\
    (res = Ok tt \/ res = Er no_key_file \/ res = Er ENoEnt).
Proof. exact rekey_failed. Qed.

Definition any_rekey : rekey_args := RekeyArgs 33 120 (FVal 3 4) (Some 3) 250.

(** An impossible size need not be noticed: the file with a value of 2^32 + 1 bytes, of which one is
    there, is accepted, and the store then opens and has a value of one byte. *)
Theorem C81_oversize_refuted :
  let x := be 6 (2 ^ 32 + 1) ++ [1; 2] ++ [7] in
  parsed 2 x [] x /\ oversize x /\
  exists w' t w'' s, run (rekey sample_env any_rekey) (one_file x) = (w', Ok t) /\
    run (store_open sample_env) w' = (w'', Ok s) /\ run (store_fetch sample_env s [1; 2]) w'' = (w'', Ok [7]).
Proof.
  intros x. split; [apply C80_oversize_refuted|]. split; [apply C80_oversize_refuted|].
  assert (G : match run (rekey sample_env any_rekey) (one_file x) with
    | (w', Ok t) => match run (store_open sample_env) w' with
      | (w'', Ok s) => run (store_fetch sample_env s [1; 2]) w'' = (w'', Ok [7])
      | _ => False end
    | _ => False end) by (vm_compute; reflexivity).
  destruct (run (rekey sample_env any_rekey) (one_file x)) as [w' [t|]]; [|contradiction].
  destruct (run (store_open sample_env) w') as [w'' [s|]] eqn:E; [|contradiction].
  exists w', t, w'', s. split; [reflexivity|]. split; [exact E|exact G].
Qed.

(** The hypotheses hold for a value, a spill record and part of a value (see C80_hypotheses for the file);
    then rekey() reports short_read and recover() brings the data file back. *)
Example C81_hypotheses : good_rekey any_rekey /\
  bytes_ok (hdr92 ++ damaged) /\ 92 <= blen (hdr92 ++ damaged) /\ first_failed (dat_checks (hdr92 ++ damaged)) = None /\
  blen (hdr92 ++ damaged) < 2 ^ 64.
Proof.
  split; [vm_compute; repeat split; discriminate|]. pose proof C80_hypotheses as (A & B & C & D & _). auto.
Qed.
Example C81_case : exists w', run (rekey sample_env any_rekey) (one_file damaged) = (w', Er short_read) /\
  run (recover sample_env) w' = (one_file damaged, Ok tt).
Proof.
  assert (G : match run (rekey sample_env any_rekey) (one_file damaged) with
    | (w', Er short_read) => run (recover sample_env) w' = (one_file damaged, Ok tt)
    | _ => False end) by (vm_compute; reflexivity).
  destruct (run (rekey sample_env any_rekey) (one_file damaged)) as [w' [|[]]]; try contradiction.
  exists w'. split; [reflexivity|exact G].
Qed.

Print Assumptions C81_ends.
Print Assumptions C81_success_whole.
Print Assumptions C81_failure_undone.
Print Assumptions C81_oversize_refuted.
