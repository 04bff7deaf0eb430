(** C82: what a data file alone gives. *)
From Verif Require Import Model.Bytes Model.Err Model.Field Model.Format Model.IO Model.BulkIO
  Model.Bucket Model.Pool Model.Recover Model.Create Model.Store Model.History Model.Visit Model.Rekey Model.RekeyLife
  Spec SpecFormat SpecHeader SpecVisit SpecVisitAny SpecSalvage Proofs.BytesFacts Proofs.RefuseFacts Proofs.VisitFacts
  Proofs.VisitAny Proofs.SalvageFacts Props.Samples Props.VisitAnyProps.

(** The data file of a store with any past [l] is cut off at any place [n].  Then the complete records of what
    is left hold the values saved first, and rekey() of these records alone gives a store with exactly these. *)
Theorem C82_cut : forall e a l w s d n r,
  iter_ok e -> good_args a -> Forall (valid_op (ca_key_size a)) l -> lived e a l w s ->
  w_dat w = Some d -> 92 <= n -> good_rekey r ->
  forall recs rest, parsed (ca_key_size a) (bdrop 92 (btake n d)) recs rest ->
  exists later, written sempty [] [] l = values recs ++ later /\
    serves e r (btake (92 + blen (flat_map image recs)) d) (ca_key_size a) (values recs).
Proof. exact cut_serves. Qed.

(** visit() tells where the complete records end: with the last amount of progress. *)
Theorem C82_where : forall w d,
  w_dat w = Some d -> bytes_ok d -> 92 <= blen d -> first_failed (dat_checks d) = None -> blen d < 2 ^ 64 ->
  forall recs rest er, parsed (num_at 26 2 d) (bdrop 92 d) recs rest -> recs <> [] ->
  rest = [] \/ cut_short (num_at 26 2 d) rest er ->
  exists calls res, run (visit (fun _ _ _ => None)) w = (w, Ok (calls ++ [VProgress (92 + blen (flat_map image recs)) (blen d)], res)).
Proof.
  intros w d H1 H2 H3 H4 H5 recs rest er P Hn Hr. set (cb := fun _ _ _ => None).
  destruct (C80_calls cb w d H1 H2 H3 H4 H5 recs rest P) as (calls & res & R & X).
  destruct (spec_visit cb (blen d) 92 [VProgress 0 (blen d)] recs) as [t [er'|]] eqn:E.
  - exfalso. assert (G : forall l off t, snd (spec_visit cb (blen d) off t l) = None).
    { induction l as [|[k v|c] l IH]; intros off t0; cbn [spec_visit]; [reflexivity| |apply IH].
      change (cb t0 k v) with (@None err). apply IH. }
    specialize (G recs 92 [VProgress 0 (blen d)]). rewrite E in G. discriminate G.
  - destruct (last_progress _ _ _ _ _ _ E Hn) as (u & Hu). destruct X as (X1 & X2 & _).
    exists u, res. rewrite R. rewrite <- Hu. destruct Hr as [Hr|Hr].
    + destruct (X1 Hr) as [-> _]. reflexivity.
    + destruct (X2 er Hr) as [-> _]. reflexivity.
Qed.

(** The data files of two databases with the same key size and no common key are joined, leaving out
    the second header: rekey() gives a store with the values of both. *)
Theorem C82_joined : forall e e1 e2 a1 a2 l1 l2 w1 w2 s1 s2 d1 d2 r,
  iter_ok e1 -> iter_ok e2 -> good_args a1 -> good_args a2 ->
  Forall (valid_op (ca_key_size a1)) l1 -> Forall (valid_op (ca_key_size a2)) l2 ->
  lived e1 a1 l1 w1 s1 -> lived e2 a2 l2 w2 s2 -> w_dat w1 = Some d1 -> w_dat w2 = Some d2 ->
  ca_key_size a1 = ca_key_size a2 -> good_rekey r ->
  let W1 := written sempty [] [] l1 in let W2 := written sempty [] [] l2 in
  (forall k, In k (map fst W1) -> ~ In k (map fst W2)) ->
  blen (d1 ++ bdrop 92 d2) < 2 ^ 48 ->
  serves e r (d1 ++ bdrop 92 d2) (ca_key_size a1) (W1 ++ W2).
Proof. exact joined_serves. Qed.

(** Another program adds values to a data file, as the format describes: rekey() gives a store with
    these too. *)
Theorem C82_extended : forall e e1 a l w s d r more,
  iter_ok e1 -> good_args a -> Forall (valid_op (ca_key_size a)) l ->
  lived e1 a l w s -> w_dat w = Some d -> good_rekey r ->
  let W := written sempty [] [] l in
  Forall (well_sized (ca_key_size a)) more -> NoDup (map fst more) ->
  (forall k, In k (map fst W) -> ~ In k (map fst more)) ->
  let d' := d ++ flat_map (fun kv => be 6 (blen (snd kv)) ++ fst kv ++ snd kv) more in
  blen d' < 2 ^ 48 -> serves e r d' (ca_key_size a) (W ++ more).
Proof. exact extended_serves. Qed.

(** ** Cases *)
Definition salv_rekey : rekey_args := RekeyArgs 33 120 (FVal 3 4) (Some 3) 250.
Definition puts (l : list N) : list op := map (fun i => OpInsert (sample_key i) (sample_val i)) l ++ [OpFlush].
Definition data_of (l : list op) : bytes :=
  match life sample_env sample_args l with (World (Some d) _ _, Some _, _) => d | _ => [] end.
Definition found (d : bytes) (l : list N) : option (list (res bytes)) :=
  match run (rekey sample_env salv_rekey) (World (Some d) None None) with
  | (w1, Ok _) =>
    match run (store_open sample_env) w1 with
    | (w2, Ok s2) => Some (map (fun i => snd (run (store_fetch sample_env s2 (sample_key i)) w2)) l)
    | _ => None
    end
  | _ => None
  end.

(** The hypotheses hold for two lives of the sample database. *)
Lemma puts_lived l : match life sample_env sample_args (puts l) with (World (Some _) _ _, Some _, _) => true | _ => false end = true ->
  exists w s, lived sample_env sample_args (puts l) w s /\ w_dat w = Some (data_of (puts l)).
Proof.
  unfold lived, data_of. destruct (life sample_env sample_args (puts l)) as [[[[d|] k g] [s|]] os]; try discriminate.
  intros _. exists (World (Some d) k g), s. split; [exists os; reflexivity|reflexivity].
Qed.
Example C82_hypotheses :
  iter_ok sample_env /\ good_args sample_args /\ good_rekey salv_rekey /\
  Forall (valid_op (ca_key_size sample_args)) (puts [1; 2; 3]) /\ Forall (valid_op (ca_key_size sample_args)) (puts [4; 5]) /\
  (exists w s, lived sample_env sample_args (puts [1; 2; 3]) w s /\ w_dat w = Some (data_of (puts [1; 2; 3]))) /\
  (exists w s, lived sample_env sample_args (puts [4; 5]) w s /\ w_dat w = Some (data_of (puts [4; 5]))) /\
  (forall k, In k (map fst (written sempty [] [] (puts [1; 2; 3]))) -> ~ In k (map fst (written sempty [] [] (puts [4; 5])))) /\
  blen (data_of (puts [1; 2; 3]) ++ bdrop 92 (data_of (puts [4; 5]))) < 2 ^ 48.
Proof.
  split; [exact sample_env_ok|]. split; [exact sample_args_good|]. split; [vm_compute; repeat split; discriminate|].
  split; [repeat constructor|]. split; [repeat constructor|].
  split; [apply puts_lived; vm_compute; reflexivity|]. split; [apply puts_lived; vm_compute; reflexivity|].
  split; [|vm_compute; reflexivity].
  assert (E1 : map fst (written sempty [] [] (puts [1; 2; 3])) = map sample_key [3; 2; 1] \/
    map fst (written sempty [] [] (puts [1; 2; 3])) = map sample_key [1; 2; 3]) by (vm_compute; auto).
  assert (E2 : map fst (written sempty [] [] (puts [4; 5])) = map sample_key [5; 4] \/
    map fst (written sempty [] [] (puts [4; 5])) = map sample_key [4; 5]) by (vm_compute; auto).
  intros k H1 H2. destruct E1 as [E1|E1]; rewrite E1 in H1; destruct E2 as [E2|E2]; rewrite E2 in H2;
    cbn [map In] in H1, H2; repeat (destruct H1 as [H1|H1]; [|]); try contradiction;
    repeat (destruct H2 as [H2|H2]; [|]); try contradiction; rewrite <- H1 in H2; vm_compute in H2; discriminate H2.
Qed.

(** Cut off 5 bytes before its end, the file of three values has two; rekey() of the rest with the part of a record
    fails.  Joined with another file, it has the values of both, and extended with a value that one too. *)
Example C82_case :
  let d := data_of (puts [1; 2; 3]) in
  (exists x y, parsed 2 (bdrop 92 (btake 123 d)) [x; y] (btake 7 (bdrop 116 d))) /\
  found (btake 116 d) [1; 2; 3] = Some [Ok (sample_val 1); Ok (sample_val 2); Er key_not_found] /\
  found (btake 123 d) [1; 2; 3] = None /\
  found (d ++ bdrop 92 (data_of (puts [4; 5]))) [1; 2; 3; 4; 5; 6] =
    Some [Ok (sample_val 1); Ok (sample_val 2); Ok (sample_val 3); Ok (sample_val 4); Ok (sample_val 5); Er key_not_found] /\
  found (d ++ be 6 2 ++ sample_key 9 ++ [8; 8]) [1; 9; 6] = Some [Ok (sample_val 1); Ok [8; 8]; Er key_not_found].
Proof.
  split; [|vm_compute; auto].
  exists (Value (sample_key 1) (sample_val 1)), (Value (sample_key 2) (sample_val 2)).
  split; [vm_compute; reflexivity|]. split; [repeat constructor|]. right; left. exists EThrow.
  replace (btake 7 (bdrop 116 (data_of (puts [1; 2; 3])))) with (be 6 4 ++ [0]) by (vm_compute; reflexivity).
  apply cut_value; [split; reflexivity|reflexivity].
Qed.

Print Assumptions C82_cut.
Print Assumptions C82_where.
Print Assumptions C82_joined.
Print Assumptions C82_extended.
