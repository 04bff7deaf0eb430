(** C12, C13, C31, C34: the table, overflow chains, growth, key file blocks. *)
From Verif Require Import Model.Bytes Model.Err Model.Format Model.IO Model.Bucket Model.Create
  Model.Store Spec SpecFormat SpecDisk Model.History Proofs.BytesFacts Proofs.DiskFacts
  Props.Samples.

(** C12.  However often the table has grown, the files hold exactly one record for
    every flushed key, and every record has exactly one index entry, in the bucket
    its hash designates for the current number of buckets. *)
Theorem C12_splits_lose_nothing : forall e a l w s,
  iter_ok e -> good_args a -> Forall (valid_op (ca_key_size a)) l -> lived e a l w s ->
  exists dat key sto, w_dat w = Some dat /\ w_key w = Some key /\
    blen key = (st_buckets s + 1) * ca_block_size a /\
    Forall (record_at dat) sto /\ NoDup (map sto_key sto) /\
    (forall k v, spec_durable sempty sempty l k = Some v <-> exists o, In (o, k, v) sto) /\
    index_ok (ca_block_size a) (st_buckets s) dat key
      (map (index_entry (hash (e_hasher e) (ca_salt a))) sto).
Proof. intros e a l w s Hit Ha Hv Hl. exact (lived_disk e a l w s Hit Ha Hv Hl). Qed.

(** Twelve splits, colliding hashes and overflow chains. *)
Example C12_example :
  exists w s, lived sample_env sample_args sample_life w s /\ st_buckets s = 13 /\
    spec_durable sempty sempty sample_life (sample_key 77) = Some [7; 7] /\
    spec_durable sempty sempty sample_life (sample_key 78) = None.
Proof.
  destruct sample_lived as (w & s & H & B). exists w, s.
  splits; [exact H|exact B|vm_compute; reflexivity|vm_compute; reflexivity].
Qed.

(** C13.  In every bucket the chain of overflow records is finite, goes to strictly
    smaller offsets, and consists of full buckets inside the data file; every
    lookup terminates with the answer of the map. *)
Theorem C13_chains_finite : forall e a l w s,
  iter_ok e -> good_args a -> Forall (valid_op (ca_key_size a)) l -> lived e a l w s ->
  (exists dat key, w_dat w = Some dat /\ w_key w = Some key /\
   forall n, n < st_buckets s -> exists es spill rest,
     block_is (ca_block_size a) key n es spill /\ spill_chain (ca_block_size a) dat spill rest) /\
  (forall k, blen k = ca_key_size a ->
     run (store_fetch e s k) w =
       (w, match spec_final sempty l k with Some v => Ok v | None => Er key_not_found end)).
Proof. intros e a l w s Hit Ha Hv Hl. exact (lived_chains e a l w s Hit Ha Hv Hl). Qed.

(** In the sample some bucket has a chain. *)
Example C13_example :
  exists w s key, lived sample_env sample_args sample_life w s /\ w_key w = Some key /\
    be_value (bsub (2 * 104 + 2) 6 key) <> 0.
Proof.
  destruct sample_lived as (w & s & H & _).
  assert (X : match w_key (fst (fst (life sample_env sample_args sample_life))) with
              | Some key => be_value (bsub (2 * 104 + 2) 6 key) | None => 0 end = 460)
    by (vm_compute; reflexivity).
  destruct H as (os & E). exists w, s. rewrite E in X. cbn [fst snd] in X.
  destruct (w_key w) as [key|]; [|discriminate X]. exists key.
  split; [exists os; exact E|]. split; [reflexivity|]. rewrite X. discriminate.
Qed.

(** C31.  In one session (from an open to a flush without re-opening in between)
    the key file grows by exactly floor((thresh/2 + 65536 n) / thresh) blocks, n
    being the number of successful inserts, however they are grouped into flushes. *)
Theorem C31_growth : forall e a l1 l2 w1 s1 w2 s2 os1 os2 key1,
  iter_ok e -> good_args a -> Forall (valid_op (ca_key_size a)) (l1 ++ l2 ++ [OpFlush]) ->
  just_opened l1 -> Forall (fun c => c <> OpReopen) l2 ->
  life e a l1 = (w1, Some s1, os1) ->
  life e a (l1 ++ l2 ++ [OpFlush]) = (w2, Some s2, os1 ++ os2) ->
  w_key w1 = Some key1 ->
  exists key2, w_key w2 = Some key2 /\
    blen key2 = blen key1 +
      ca_block_size a * ((thresh_of a / 2 + 65536 * inserted os2) / thresh_of a).
Proof. exact growth_exact. Qed.

(** C31, load: in a database written in one session the average number of entries
    per bucket is below thresh/65536, that is load_factor times capacity. *)
Theorem C31_load_bounded : forall e a l w s os key,
  iter_ok e -> good_args a -> Forall (valid_op (ca_key_size a)) (l ++ [OpFlush]) ->
  Forall (fun c => c <> OpReopen) l ->
  life e a (l ++ [OpFlush]) = (w, Some s, os) -> w_key w = Some key ->
  65536 * inserted os < thresh_of a * (blen key / ca_block_size a - 1).
Proof. exact load_bounded. Qed.

(** Thirty inserts in two flushes: 1 + floor((81920 + 65536*30)/163840) = 13 buckets. *)
Example C31_example :
  exists w s os key,
    life sample_env sample_args ((sample_inserts 30 ++ [OpFlush; OpInsert [9; 9] [1]]) ++ [OpFlush]) =
      (w, Some s, os) /\
    w_key w = Some key /\ inserted os = 31 /\ blen key = 14 * 104 /\
    thresh_of sample_args = 163840.
Proof.
  destruct (life sample_env sample_args
    ((sample_inserts 30 ++ [OpFlush; OpInsert [9; 9] [1]]) ++ [OpFlush])) as [[w os0] os] eqn:E.
  assert (X : match life sample_env sample_args
                ((sample_inserts 30 ++ [OpFlush; OpInsert [9; 9] [1]]) ++ [OpFlush]) with
              | (World _ (Some key) _, Some _, os) => (blen key, inserted os)
              | _ => (0, 0) end = (1456, 31)) by (vm_compute; reflexivity).
  rewrite E in X. destruct w as [d [key|] lg], os0 as [s|]; try discriminate X.
  exists (World d (Some key) lg), s, os, key. injection X; intros X1 X2.
  split; [reflexivity|]. split; [reflexivity|]. split; [exact X1|]. split; [exact X2|reflexivity].
Qed.

(** The bound on the load does not hold across sessions: open() restarts the
    fraction at thresh/2, so sessions with a single insert each never split. *)
Theorem C31_load_across_sessions_refuted :
  exists e a l w s os key,
    iter_ok e /\ good_args a /\ Forall (valid_op (ca_key_size a)) (l ++ [OpFlush]) /\
    life e a (l ++ [OpFlush]) = (w, Some s, os) /\ w_key w = Some key /\
    thresh_of a * (blen key / ca_block_size a - 1) + 65536 <= 65536 * inserted os.
Proof.
  pose (l := [OpInsert [0; 1] [1]; OpReopen; OpInsert [0; 2] [1]; OpReopen; OpInsert [0; 3] [1];
              OpReopen; OpInsert [0; 4] [1]]).
  exists sample_env, sample_args, l.
  destruct (life sample_env sample_args (l ++ [OpFlush])) as [[w os0] os] eqn:E.
  assert (X : match life sample_env sample_args (l ++ [OpFlush]) with
              | (World _ (Some key) _, Some _, os) => (blen key, inserted os)
              | _ => (0, 0) end = (208, 4)) by (vm_compute; reflexivity).
  rewrite E in X. destruct w as [d [key|] lg], os0 as [s|]; try discriminate X.
  exists (World d (Some key) lg), s, os, key. injection X; intros X1 X2.
  split; [exact sample_env_ok|]. split; [exact sample_args_good|].
  split; [repeat constructor|]. split; [reflexivity|]. split; [reflexivity|].
  rewrite X1, X2. vm_compute. discriminate.
Qed.

(** C34.  The key file is the header block followed by one zero-padded sorted
    bucket per block, whatever uninitialised memory contains. *)
Theorem C34_key_file_blocks : forall e a l w s,
  iter_ok e -> good_args a -> Forall (valid_op (ca_key_size a)) l -> lived e a l w s ->
  exists key, w_key w = Some key /\ blen key = (st_buckets s + 1) * ca_block_size a /\
    (exists lf, lf_field (ca_load_factor a) = Some lf /\
       bsub 0 (ca_block_size a) key =
         enc_key_header (create_key_header e a lf) ++ zeros (ca_block_size a - 104)) /\
    forall n, n < st_buckets s -> exists es spill, block_is (ca_block_size a) key n es spill.
Proof. intros e a l w s Hit Ha Hv Hl. exact (lived_key_file e a l w s Hit Ha Hv Hl). Qed.

Example C34_example :
  exists w s, lived sample_env sample_args sample_life w s /\ e_junk sample_env <> [] /\
    exists key, w_key w = Some key /\ blen key = 14 * 104.
Proof.
  destruct sample_lived as (w & s & H & B). exists w, s.
  split; [exact H|]. split; [discriminate|].
  destruct (C34_key_file_blocks _ _ _ w s sample_env_ok sample_args_good sample_life_valid H)
    as (key & K & L & _). exists key. split; [exact K|]. rewrite L, B. reflexivity.
Qed.

Print Assumptions C12_splits_lose_nothing.
Print Assumptions C13_chains_finite.
Print Assumptions C31_growth.
Print Assumptions C31_load_bounded.
Print Assumptions C31_load_across_sessions_refuted.
Print Assumptions C34_key_file_blocks.
