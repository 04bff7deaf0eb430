(** The statements about visit() in the form of Props/VisitProps.v. *)
From Verif Require Import Model.Bytes Model.Err Model.Field Model.Format Model.IO Model.BulkIO
  Model.Bucket Model.Pool Model.Recover Model.Create Model.Store Model.History Model.Visit Model.Events
  Spec SpecFormat SpecHeader SpecVisit Proofs.BytesFacts Proofs.StoreInv Proofs.LifeFacts
  Proofs.RefuseFacts Proofs.VisitFacts Proofs.WrittenFacts.

Lemma visit_file_calls : forall cb w hdr l,
  let d := hdr ++ flat_map image l in
  w_dat w = Some d -> blen hdr = 92 -> bytes_ok hdr -> first_failed (dat_checks d) = None ->
  Forall (record_ok (num_at 26 2 d)) l -> blen d < 2 ^ 64 ->
  exists calls, run (visit cb) w = (w, Ok calls) /\
    match spec_visit cb (blen d) 92 [VProgress 0 (blen d)] l with
    | (t, None) => calls = (t, Ok tt)
    | (t, Some er) => calls = (t, Er er)
    end.
Proof.
  intros cb w hdr l d H1 H2 H3 H4 H5 H6. eexists. split; [apply (visit_file cb w hdr l); auto|].
  fold (images l). fold d. destruct (spec_visit _ _ _ _ _) as [t [er|]]; reflexivity.
Qed.

Lemma visit_truncated_calls : forall cb w hdr l x n,
  let d := hdr ++ flat_map image l ++ btake n (image x) in
  w_dat w = Some d -> blen hdr = 92 -> bytes_ok hdr -> first_failed (dat_checks d) = None ->
  Forall (record_ok (num_at 26 2 d)) (l ++ [x]) -> 0 < n < blen (image x) -> blen d < 2 ^ 64 ->
  exists calls, run (visit cb) w = (w, Ok calls) /\
    match spec_visit cb (blen d) 92 [VProgress 0 (blen d)] l with
    | (t, None) => calls = (t, Er match x with
        | Value _ _ => if n <? 6 then short_read else EThrow
        | Spill _ => short_read
        end)
    | (t, Some er) => calls = (t, Er er)
    end.
Proof.
  intros cb w hdr l x n d H1 H2 H3 H4 H5 H6 H7. eexists. split; [apply (visit_truncated cb w hdr l x n); auto|].
  fold (images l). fold d. destruct (spec_visit _ _ _ _ _) as [t [er|]]; reflexivity.
Qed.

Lemma visit_database : forall e a l w s cb,
  iter_ok e -> good_args a -> Forall (valid_op (ca_key_size a)) l -> lived e a l w s ->
  let W := written sempty [] [] l in
  NoDup (map fst W) /\
  (forall k v, In (k, v) W <-> spec_durable sempty sempty l k = Some v) /\
  exists calls r, run (visit cb) w = (w, Ok (calls, r)) /\
    ((r = Ok tt /\ items calls = W /\ no_error cb calls) \/
     (exists before k v er rest,
        calls = before ++ [VItem k v] /\ cb before k v = Some er /\ r = Er er /\
        no_error cb before /\ items calls ++ rest = W)).
Proof.
  intros e a l w s cb Hit Ha Hv Hl W.
  destruct (written_durable e a l w s Ha Hit Hv Hl) as [A B]. split; auto. split; auto.
  destruct (lived_written e a l w s Ha Hit Hv Hl) as (recs & T & i & b & Hi & _ & Hk).
  destruct (good_args_ok a Ha) as (Hp & _).
  destruct (visit_disk e _ cb recs T w Hp (si_disk _ _ _ _ _ _ Hi)) as (d & Hd & Hr & _).
  rewrite Hr. destruct (spec_visit _ _ _ _ _) as [t o] eqn:Es.
  apply spec_visit_calls in Es; [|apply (no_error_progress _ []); apply no_error_nil].
  rewrite values_kvs, Hk in Es. cbn [items app] in Es. fold W in Es.
  destruct o as [er|]; cbn [finish].
  - destruct Es as (bf & k & v & rest & E1 & E2 & E3 & E4). exists t, (Er er). split; auto.
    right. exists bf, k, v, er, rest. auto.
  - destruct Es as [E1 E2]. exists t, (Ok tt). split; auto.
Qed.

Lemma visit_progress : forall e a l w s cb d,
  iter_ok e -> good_args a -> Forall (valid_op (ca_key_size a)) l -> lived e a l w s ->
  w_dat w = Some d ->
  exists calls r, run (visit cb) w = (w, Ok (calls, r)) /\ progress_ok 0 (blen d) calls.
Proof.
  intros e a l w s cb d Hit Ha Hv Hl Hd.
  destruct (lived_written e a l w s Ha Hit Hv Hl) as (recs & T & i & b & Hi & _ & Hk).
  destruct (good_args_ok a Ha) as (Hp & _).
  destruct (visit_disk e _ cb recs T w Hp (si_disk _ _ _ _ _ _ Hi)) as (d' & Hd' & Hr & Hlen).
  rewrite Hd in Hd'. assert (d' = d) by congruence. subst d'. clear Hd'.
  rewrite Hr. destruct (spec_visit _ _ _ _ _) as [t o] eqn:Es.
  apply spec_visit_progress in Es as [E _].
  - destruct o; cbn [finish]; eauto.
  - cbn [progress_ok]. split; auto. split; auto. lia.
  - cbn [last_progress]. lia.
  - lia.
Qed.
