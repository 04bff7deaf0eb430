(** C57: the ratios reported by verify(). *)
From Verif Require Import Model.Bytes Model.Err Model.Field Model.Format Model.IO Model.BulkIO
  Model.Bucket Model.Pool Model.Recover Model.Create Model.Store Model.History Model.Visit Model.Verify Model.VerifyProgress
  Model.VerifyFetch Model.Events
  Spec SpecFormat SpecHeader SpecDisk SpecVisit SpecVerify SpecFetch Proofs.BytesFacts Proofs.RefuseFacts
  Proofs.VisitFacts Proofs.WrittenFacts Proofs.VerifyTheorems Proofs.VerifyFetchSim Proofs.VerifyFetchTheorems
  Props.Samples Props.VerifyProps.

(** The function with the ratios does to all files, healthy or not, what the one without
    them does (Model/Verify.v, C22, C23). *)
Theorem C57_same_result : forall e buf w,
  fst (run (verify_report e buf) w) = fst (run (verify e buf) w) /\
  match snd (run (verify_report e buf) w) with
  | Ok x => snd (run (verify e buf) w) = Ok (vr_info x)
  | Er er => snd (run (verify e buf) w) = Er er
  end.
Proof. exact verify_report_same. Qed.

(** The average number of reads of a fetch.  On the files of any database reached by a
    history of calls, avg_fetch is the average over the values of the number of file
    reads that fetch() makes on a newly opened store, not counting the read of the value
    itself; that is, the reads of buckets and those of other values with the same hash. *)
Theorem C57_fetches : forall e a l w s buf x,
  iter_ok e -> good_args a -> Forall (valid_op (ca_key_size a)) l -> lived e a l w s ->
  snd (run (verify_report e buf) w) = Ok x ->
  let kvs := written sempty [] [] l in
  exists w' s', run (store_open e) w = (w', Ok s') /\
    if blen kvs =? 0 then vr_avg_fetch x = (0, 1)
    else exists f, vr_avg_fetch x = (f, blen kvs) /\
      f + blen kvs = total (map (fun kv => nreads (store_fetch e s' (fst kv)) w') kvs).
Proof.
  intros e a l w s buf x Hit Ha Hv Hl Hx.
  destruct (lived_report e a l w s buf x Hit Ha Hv Hl Hx)
    as (dat & key & rs & lens & w' & s' & _ & _ & _ & Hk & Ho & H). clear Hl Hx.
  exists w', s'. split; [exact Ho|]. destruct H as (_ & H1 & _ & H2 & _).
  change (s_values (true_stats (ca_block_size a) rs lens)) with (blen (values rs)) in *.
  rewrite Hk in *. destruct (N.eqb_spec (blen (written sempty [] [] l)) 0) as [Z|Z]; [exact (proj1 (H2 Z))|].
  apply H1. lia.
Qed.

(** The overhead is the size of both files over the bytes needed for keys, values and
    sizes (less 1), and the load is the number of values over the number of entries for
    which the buckets have room. *)
Theorem C57_overhead_and_load : forall e a l w s buf x,
  iter_ok e -> good_args a -> Forall (valid_op (ca_key_size a)) l -> lived e a l w s ->
  snd (run (verify_report e buf) w) = Ok x ->
  let kvs := written sempty [] [] l in
  exists dat key B, w_dat w = Some dat /\ w_key w = Some key /\ blen key = (B + 1) * ca_block_size a /\
    vr_load x = (blen kvs, capacity (ca_block_size a) * B) /\
    vr_overhead x = if blen kvs =? 0 then (1, 1)
      else (blen key + blen dat, total (map (fun kv => 6 + blen (fst kv) + blen (snd kv)) kvs)).
Proof.
  intros e a l w s buf x Hit Ha Hv Hl Hx.
  destruct (lived_report e a l w s buf x Hit Ha Hv Hl Hx)
    as (dat & key & rs & lens & w' & s' & H1 & H2 & Hdb & Hk & Ho & H). clear Hl Hx.
  exists dat, key, (blen lens). split; [exact H1|]. split; [exact H2|]. split; [exact (db_blocks _ _ _ _ _ _ Hdb)|].
  destruct H as (_ & _ & H3 & H4 & H5 & _).
  change (s_values (true_stats (ca_block_size a) rs lens)) with (blen (values rs)) in *.
  rewrite Hk in *. split; [exact H5|].
  destruct (N.eqb_spec (blen (written sempty [] [] l)) 0) as [Z|Z]; [exact (proj2 (H4 Z))|].
  apply H3. lia.
Qed.

(** The waste is the fraction of the data file occupied by spill records not in use:
    in the normal algorithm, and in the fast one if there is no spill record at all or if
    the whole key file is read at once and some spill record is in use. *)
Theorem C57_waste_partial : forall e a l w s buf x,
  iter_ok e -> good_args a -> Forall (valid_op (ca_key_size a)) l -> lived e a l w s ->
  snd (run (verify_report e buf) w) = Ok x ->
  let bs := ca_block_size a in
  exists dat key rs lens, w_dat w = Some dat /\ w_key w = Some key /\
    database (ca_key_size a) bs dat key rs lens /\ values rs = written sempty [] [] l /\
    total lens <= count is_spill rs /\ snd (vr_waste x) = blen dat /\
    (vi_algorithm (vr_info x) = 0 \/ (blen lens * (bs + 8) + bs <= buf /\ 0 < total lens) \/ count is_spill rs = 0 ->
     fst (vr_waste x) = (count is_spill rs - total lens) * (8 + (8 + 18 * capacity bs))).
Proof.
  intros e a l w s buf x Hit Ha Hv Hl Hx.
  destruct (lived_report e a l w s buf x Hit Ha Hv Hl Hx)
    as (dat & key & rs & lens & w' & s' & H1 & H2 & Hdb & Hk & Ho & H). clear Hl Hx.
  exists dat, key, rs, lens. destruct H as (_ & _ & _ & _ & _ & H6 & H7 & H8).
  split; [exact H1|]. split; [exact H2|]. split; [exact Hdb|]. split; [exact Hk|]. split; [exact H6|]. split; [exact H7|].
  intros Hw. rewrite (H8 Hw). rewrite N.mul_sub_distr_r. reflexivity.
Qed.

(** The hypotheses hold of the sample database: 31 values, 123 file reads to fetch all. *)
Example C57_sample :
  match run (verify_report sample_env 0) files120, run (verify_report sample_env 10000) files120,
        run (store_open sample_env) files120 with
  | (_, Ok x), (_, Ok x'), (w', Ok s') =>
    (vi_algorithm (vr_info x), vi_algorithm (vr_info x')) = (0, 1) /\
    (vr_avg_fetch x, vr_waste x, vr_overhead x, vr_load x) = ((92, 31), (124, 710), (1550, 370), (31, 36)) /\
    (vr_avg_fetch x', vr_waste x', vr_overhead x', vr_load x') = ((92, 31), (124, 710), (1550, 370), (31, 36)) /\
    total (map (fun kv => nreads (store_fetch sample_env s' (fst kv)) w') (written sempty [] [] sample_life)) = 123
  | _, _, _ => False
  end.
Proof. vm_compute. auto 10. Qed.

(** The waste is wrong in the fast algorithm: here more than the whole data file is
    reported to be wasted. *)
Theorem C57_waste_refuted : exists e a l w s buf x,
  iter_ok e /\ good_args a /\ Forall (valid_op (ca_key_size a)) l /\ lived e a l w s /\
  snd (run (verify_report e buf) w) = Ok x /\ snd (vr_waste x) < fst (vr_waste x).
Proof.
  destruct C22_sample120 as (s & H). exists sample_env, args120, sample_life, files120, s, 248.
  assert (X : match snd (run (verify_report sample_env 248) files120) with
              | Ok x => (snd (vr_waste x) <? fst (vr_waste x)) = true | Er _ => False end)
    by (vm_compute; reflexivity).
  destruct (snd (run (verify_report sample_env 248) files120)) as [x|er]; [|destruct X].
  exists x. split; [exact sample_env_ok|]. split; [exact args120_good|].
  split; [change (ca_key_size args120) with (ca_key_size sample_args); exact sample_life_valid|].
  split; [exact H|]. split; [reflexivity|]. apply N.ltb_lt. exact X.
Qed.

Print Assumptions C57_same_result.
Print Assumptions C57_fetches.
Print Assumptions C57_overhead_and_load.
Print Assumptions C57_waste_partial.
Print Assumptions C57_waste_refuted.
