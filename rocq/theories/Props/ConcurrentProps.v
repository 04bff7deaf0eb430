(** C24, C25: the store used by several threads. *)
From Verif Require Import Model.Bytes Model.Err Model.Format Model.IO Model.Bucket Model.Pool Model.Create
  Model.Store Spec SpecLin Model.History Model.Concurrent
  Proofs.BytesFacts Proofs.StoreInv Proofs.LifeFacts Proofs.ConcFacts Proofs.LinFacts Proofs.ConcInv Proofs.ConcTheorems
  Props.Samples.

(** ** A concrete execution, to show that hypotheses can be met *)
Inductive act := ACall (t : N) (c : op) | AThread (t : N) | AFlush.

Definition do_act (e : env) (ks : N) (x : xst) (a : act) : option (list hev * xst) :=
  match a with
  | ACall t c =>
    match x_th x t, call_state c with
    | CIdle, Some s => if kh_key_size (st_kh (x_s x)) =? ks then Some ([HCall t c], goto x t s) else None
    | _, _ => None
    end
  | AThread t => thread_step e x t
  | AFlush => match flush_step e x with Some x' => Some ([], x') | None => None end
  end.

Fixpoint do_acts (e : env) (ks : N) (x : xst) (h : list hev) (l : list act) : option (list hev * xst) :=
  match l with
  | [] => Some (h, x)
  | a :: l' => match do_act e ks x a with Some (h', x') => do_acts e ks x' (h ++ h') l' | None => None end
  end.

Definition acts_valid (ks : N) (l : list act) : Prop :=
  Forall (fun a => match a with ACall _ c => valid_op ks c | _ => True end) l.

Lemma do_acts_exec e x0 ks l : forall x h h' x',
  acts_valid ks l -> xexec e x0 h x -> do_acts e ks x h l = Some (h', x') -> xexec e x0 h' x'.
Proof.
  induction l as [|a l IH]; intros x h h' x' Hv Hx Hd; cbn [do_acts] in Hd.
  - injection Hd as <- <-. exact Hx.
  - inversion Hv as [|? ? Ha Hl]; subst. destruct (do_act e ks x a) as [[h1 x1]|] eqn:E; [|discriminate].
    apply (IH _ _ _ _ Hl) in Hd; auto. eapply xe_step; [exact Hx|].
    destruct a as [t c|t|]; cbn [do_act] in E.
    + destruct (x_th x t) eqn:Et; try discriminate. destruct (call_state c) eqn:Ec; [|discriminate].
      destruct (N.eqb_spec (kh_key_size (st_kh (x_s x))) ks) as [Ek|]; [|discriminate].
      injection E as <- <-. apply xs_call; auto. rewrite Ek. exact Ha.
    + eapply xs_thread. exact E.
    + destruct (flush_step e x) eqn:Ef; [|discriminate]. injection E as <- <-. apply xs_flush. exact Ef.
Qed.

Definition after (e : env) (a : create_args) (l : list op) (acts : list act) : option (list hev * xst) :=
  match life e a l with (w, Some s, _) => do_acts e (ca_key_size a) (xinit s w) [] acts | _ => None end.

Lemma after_concurrent e a l acts h x :
  acts_valid (ca_key_size a) acts -> after e a l acts = Some (h, x) -> concurrent e a l h x.
Proof.
  unfold after. destruct (life e a l) as [[w [s|]] os] eqn:E; [|discriminate]. intros Hv Hd.
  exists w, s. split; [exists os; exact E|]. eapply do_acts_exec; [exact Hv|apply xe_nil|exact Hd].
Qed.

Fixpoint times {A} (n : nat) (x : A) : list A := match n with O => [] | S n' => x :: times n' x end.

(** The store of a life with a flush in it and 3 pending inserts. *)
Definition sample_start : list op :=
  sample_inserts 12 ++ [OpFlush] ++
  map (fun i => OpInsert (sample_key i) (sample_val i)) [40; 41; 42].
(** Thread 1 has decided to read bucket 5 of the key file; the flush has prepared its new
    buckets ... *)
Definition sample_acts0 : list act :=
  [ACall 1 (OpFetch (sample_key 5)); AThread 1] ++ times 11 AFlush.
(** ... it publishes them, bucket 5 among them, and has to wait for thread 1; meanwhile
    thread 2 inserts key 60, thread 3 fetches it, thread 4 begins to read bucket 0 of the
    key file, which is not among the new buckets, and thread 5 uses the new bucket 3 ... *)
Definition sample_mid : list act :=
  times 5 AFlush ++ [ACall 2 (OpInsert (sample_key 60) [6; 0])] ++ times 8 (AThread 2) ++
  [ACall 3 (OpFetch (sample_key 60)); AThread 3; AThread 3;
   ACall 4 (OpFetch (sample_key 7)); AThread 4; ACall 5 (OpFetch (sample_key 3)); AThread 5].
Definition sample_acts1 : list act := sample_acts0 ++ sample_mid.
(** ... thread 1 finishes; the flush is about to write a bucket, while thread 4 still reads ... *)
Definition sample_acts2 : list act := sample_acts1 ++ times 5 (AThread 1) ++ [AFlush].
(** ... and all finish. *)
Definition sample_acts3 : list act :=
  sample_acts2 ++ times 4 (AThread 4) ++ times 5 (AThread 5) ++ times 10 AFlush.

Lemma sample_start_valid : Forall (valid_op (ca_key_size sample_args)) sample_start.
Proof. repeat constructor. Qed.
Lemma sample_acts_valid : acts_valid (ca_key_size sample_args) sample_acts3.
Proof. repeat constructor. Qed.


Definition idle (c : cth) : bool := match c with CIdle => true | _ => false end.
Lemma idle_true c : idle c = true -> c = CIdle.
Proof. destruct c; try discriminate; auto. Qed.
Definition sample_hist0 : list hev := [HCall 1 (OpFetch (sample_key 5))].
Definition sample_hist1 : list hev :=
  sample_hist0 ++ [HCall 2 (OpInsert (sample_key 60) [6; 0]); HRet 2 OInserted; HCall 3 (OpFetch (sample_key 60));
    HRet 3 (OFound [6; 0]); HCall 4 (OpFetch (sample_key 7)); HCall 5 (OpFetch (sample_key 3))].
Definition sample_hist3 : list hev :=
  sample_hist1 ++ [HRet 1 (OFound (sample_val 5)); HRet 4 (OFound (sample_val 7)); HRet 5 (OFound (sample_val 3))].


(** The state before the publication, the one after it, and the one while the flush waits. *)
Lemma sample_states : exists x0 x1 x2 h,
  concurrent sample_env sample_args sample_start sample_hist0 x0 /\
  (exists st, x_fl x0 = FlData (Ret (Ok st))) /\ hold (x_th x0 1) = Some (5, 0) /\
  flush_step sample_env x0 = Some x1 /\ xexec sample_env x1 h x2 /\
  concurrent sample_env sample_args sample_start sample_hist1 x2 /\
  x_fl x2 = FlWait /\ g_gen (x_g x2) = g_gen (x_g x1) /\ flush_step sample_env x2 = None /\
  hold (x_th x2 1) = Some (5, 0) /\ hold (x_th x2 4) = Some (0, 1) /\ (exists b, uses (x_th x2 5) = Some (3, b)).
Proof.
  assert (X : match after sample_env sample_args sample_start sample_acts0 with
    | Some (h0, x0) =>
      h0 = sample_hist0 /\ match x_fl x0 with FlData (Ret (Ok _)) => True | _ => False end /\
      hold (x_th x0 1) = Some (5, 0) /\
      match flush_step sample_env x0 with
      | Some x1 =>
        match do_acts sample_env (ca_key_size sample_args) x1 [] (tl sample_mid) with
        | Some (h, x2) =>
          sample_hist0 ++ h = sample_hist1 /\ match x_fl x2 with FlWait => True | _ => False end /\
          g_gen (x_g x2) = g_gen (x_g x1) /\
          match flush_step sample_env x2 with None => True | Some _ => False end /\
          hold (x_th x2 1) = Some (5, 0) /\ hold (x_th x2 4) = Some (0, 1) /\
          match uses (x_th x2 5) with Some (n, _) => n = 3 | None => False end
        | None => False
        end
      | None => False
      end
    | None => False
    end) by (vm_compute; repeat split).
  destruct (after sample_env sample_args sample_start sample_acts0) as [[h0 x0]|] eqn:E0; [|contradiction].
  destruct X as (-> & X1 & X2 & X3).
  destruct (flush_step sample_env x0) as [x1|] eqn:E1; [|contradiction].
  destruct (do_acts sample_env (ca_key_size sample_args) x1 [] (tl sample_mid)) as [[h x2]|] eqn:E2; [|contradiction].
  destruct X3 as (Y1 & Y2 & Y3 & Y4 & Y5 & Y6 & Y7).
  assert (C0 : concurrent sample_env sample_args sample_start sample_hist0 x0).
  { eapply after_concurrent; [|exact E0]. repeat constructor. }
  assert (C1 : xexec sample_env x1 h x2).
  { eapply do_acts_exec; [|apply xe_nil|exact E2]. repeat constructor. }
  exists x0, x1, x2, h. splits; auto.
  - destruct (x_fl x0) as [|[[st|]|]| | |]; try contradiction. eauto.
  - destruct C0 as (w & s & Hl & Hx). exists w, s. split; auto. rewrite <- Y1.
    eapply xexec_app; [|exact C1]. rewrite <- (app_nil_r sample_hist0). eapply xe_step; [exact Hx|].
    apply xs_flush. exact E1.
  - destruct (x_fl x2); try contradiction. auto.
  - destruct (flush_step sample_env x2); [contradiction|auto].
  - destruct (uses (x_th x2 5)) as [[n b]|]; [|contradiction]. subst n. eauto.
Qed.

(** The state in which the flush writes bucket 5 while thread 4 reads bucket 0. *)
Lemma sample_writing : exists x, concurrent sample_env sample_args sample_start (sample_hist1 ++ [HRet 1 (OFound (sample_val 5))]) x /\
  hold (x_th x 4) = Some (0, 1) /\ thread_io (x_th x 4) = Some (IoRead FKey 104 98) /\
  exists d, flush_io (x_fl x) = Some (IoWrite FKey false 624 d) /\ blen d = 104.
Proof.
  assert (X : match after sample_env sample_args sample_start sample_acts2 with
    | Some (h, x) => h = sample_hist1 ++ [HRet 1 (OFound (sample_val 5))] /\
        hold (x_th x 4) = Some (0, 1) /\ thread_io (x_th x 4) = Some (IoRead FKey 104 98) /\
        match flush_io (x_fl x) with
        | Some (IoWrite FKey false off d) => off = 624 /\ blen d = 104
        | _ => False
        end
    | None => False end) by (vm_compute; repeat split).
  destruct (after sample_env sample_args sample_start sample_acts2) as [[h x]|] eqn:E; [|contradiction].
  destruct X as (-> & X1 & X2 & X3). exists x. splits; auto.
  - eapply after_concurrent; [|exact E]. repeat constructor.
  - destruct (flush_io (x_fl x)) as [[| | | | |[] [] off d| |]|]; try contradiction. destruct X3 as [-> X4]. eauto.
Qed.

(** The state at the end. *)
Lemma sample_end : exists x, concurrent sample_env sample_args sample_start sample_hist3 x /\
  (forall t, x_th x t = CIdle) /\ x_fl x = FlIdle.
Proof.
  assert (X : match after sample_env sample_args sample_start sample_acts3 with
    | Some (h, x) => h = sample_hist3 /\ map (fun t => idle (x_th x t)) [1; 2; 3; 4; 5] = [true; true; true; true; true] /\
        match x_fl x with FlIdle => True | _ => False end
    | None => False end) by (vm_compute; repeat split).
  destruct (after sample_env sample_args sample_start sample_acts3) as [[h x]|] eqn:E; [|contradiction].
  destruct X as (-> & X1 & X2).
  assert (C : concurrent sample_env sample_args sample_start sample_hist3 x).
  { eapply after_concurrent; [|exact E]. exact sample_acts_valid. }
  clear E. exists x. split; [exact C|]. split; [|destruct (x_fl x); [reflexivity|contradiction..]].
  cbn [map] in X1. injection X1 as I1 I2 I3 I4 I5.
  intros t. destruct (N.eq_dec t 1) as [->|N1]; [exact (idle_true _ I1)|].
  destruct (N.eq_dec t 2) as [->|N2]; [exact (idle_true _ I2)|].
  destruct (N.eq_dec t 3) as [->|N3]; [exact (idle_true _ I3)|].
  destruct (N.eq_dec t 4) as [->|N4]; [exact (idle_true _ I4)|].
  destruct (N.eq_dec t 5) as [->|N5]; [exact (idle_true _ I5)|].
  destruct C as (w & s & _ & Hx). eapply never_called; [exact Hx|reflexivity|].
  intros c Hc. cbn in Hc. repeat (destruct Hc as [Hc|Hc]; [try discriminate; injection Hc; intros; subst; contradiction|]).
  contradiction.
Qed.

(** ** C24 *)
(** C24.  In every interleaving of threads that fetch and insert with the flush, every call
    gets an answer it would get if it were executed atomically at some instant between its
    start and its end. *)
Theorem C24_linearizable : forall e a l h x,
  iter_ok e -> good_args a -> Forall (valid_op (ca_key_size a)) l ->
  concurrent e a l h x ->
  linearizable (spec_final sempty l) h.
Proof.
  intros e a l h x Hit Ha Hv Hc.
  destruct (conc_inv e a l h x Ha Hit Hv Hc) as (recs & T & A & m & f & Hat & _).
  exists m, f. exact Hat.
Qed.

Example C24_example : linearizable (spec_final sempty sample_start) sample_hist3 /\
  exists x, concurrent sample_env sample_args sample_start sample_hist3 x.
Proof.
  destruct sample_end as (x & Hc & _). split; [|eauto].
  apply (C24_linearizable _ _ _ _ x sample_env_ok sample_args_good sample_start_valid Hc).
Qed.

(** C24, spelt out for an insert and a fetch that starts after the insert has returned: the
    fetch finds the value, whatever happened before, in between and at the same time. *)
Theorem C24_insert_then_fetch : forall e a l x t k v o u o' h1 h2 h3 h4 h5,
  let h := h1 ++ HCall t (OpInsert k v) :: h2 ++ HRet t o :: h3 ++ HCall u (OpFetch k) :: h4 ++ HRet u o' :: h5 in
  iter_ok e -> good_args a -> Forall (valid_op (ca_key_size a)) l ->
  concurrent e a l h x ->
  quiet t h2 -> quiet u h4 ->
  exists v', o' = OFound v' /\ (o = OInserted -> v' = v).
Proof.
  intros e a l x t k v o u o' h1 h2 h3 h4 h5 h Hit Ha Hv Hc Ht Hu.
  eapply insert_then_fetch; [|exact Ht|exact Hu]. exact (C24_linearizable _ _ _ _ _ Hit Ha Hv Hc).
Qed.

Example C24_insert_then_fetch_example :
  exists x h1 h5, concurrent sample_env sample_args sample_start
    (h1 ++ HCall 2 (OpInsert (sample_key 60) [6; 0]) :: [] ++ HRet 2 OInserted :: [] ++
     HCall 3 (OpFetch (sample_key 60)) :: [] ++ HRet 3 (OFound [6; 0]) :: h5) x /\ h1 <> [] /\ h5 <> [].
Proof.
  destruct sample_end as (x & Hc & _). exists x, sample_hist0. eexists. split; [exact Hc|]. split; discriminate.
Qed.

(** C24: nothing is found that has not been inserted. *)
Theorem C24_no_invented_value : forall e a l h x t v,
  iter_ok e -> good_args a -> Forall (valid_op (ca_key_size a)) l ->
  concurrent e a l h x -> In (HRet t (OFound v)) h ->
  (exists k, spec_final sempty l k = Some v) \/ exists u k, In (HCall u (OpInsert k v)) h.
Proof.
  intros. eapply found_was_inserted; eauto. eapply C24_linearizable; eauto.
Qed.

Example C24_no_invented_value_example : exists x,
  concurrent sample_env sample_args sample_start sample_hist3 x /\
  In (HRet 1 (OFound (sample_val 5))) sample_hist3 /\ In (HRet 3 (OFound [6; 0])) sample_hist3.
Proof.
  destruct sample_end as (x & Hc & _). exists x. split; [exact Hc|]. cbn. auto 20.
Qed.

(** C24, continued: when all calls have returned and no flush is in progress, the store
    goes on (also being closed and opened) with contents that explain the history. *)
Theorem C24_quiet_store : forall e a l h x,
  iter_ok e -> good_args a -> Forall (valid_op (ca_key_size a)) l ->
  concurrent e a l h x -> (forall t, x_th x t = CIdle) -> x_fl x = FlIdle ->
  exists m, linearizes (spec_final sempty l) h m /\
    forall l', Forall (valid_op (ca_key_size a)) l' -> 
      small_history (l ++ calls h ++ l') \/ ~ near_limit (fst (fst (do_ops e (x_s x) l' (x_w x)))) ->
    exists w' s', do_ops e (x_s x) l' (x_w x) = (w', Some s', spec_outs m l').
Proof. intros. eapply quiet_store; eauto. Qed.

Example C24_quiet_store_example :
  exists x, concurrent sample_env sample_args sample_start sample_hist3 x /\
    (forall t, x_th x t = CIdle) /\ x_fl x = FlIdle.
Proof. exact sample_end. Qed.

(** C24: a fetch only ever waits for the short pieces of code that own m_ exclusively (single
    transitions here), whenever calls are in progress some thread can go on, and the flush can
    go on or waits for a thread that can (unless the data file has come near the 2^48 bytes
    that the format can address: then a flush may end with a failed assertion). *)
Definition fetching (c : cth) : Prop :=
  match c with CFetch _ | CFetchC _ _ _ | CFetchK _ _ _ => True | _ => False end.
Theorem C24_no_deadlock : forall e a l h x,
  iter_ok e -> good_args a -> Forall (valid_op (ca_key_size a)) l ->
  concurrent e a l h x ->
  (forall t, fetching (x_th x t) -> exists h' x', thread_step e x t = Some (h', x')) /\
  (forall t, x_th x t <> CIdle -> exists u h' x', thread_step e x u = Some (h', x')) /\
  (small_history (l ++ calls h) \/ ~ near_limit (x_w x) ->
   (exists x', flush_step e x = Some x') \/ exists u h' x', thread_step e x u = Some (h', x')).
Proof.
  intros e a l h x Hit Ha Hv Hc. destruct (good_args_ok a Ha) as (Hp & _).
  destruct (conc_inv e a l h x Ha Hit Hv Hc) as (recs & T & A & m & f & _ & Hi). splits.
  - intros t Ht. destruct (step_or_wait e x t) as [E|[E|[(_ & k & v & E)|(_ & k & v & E)]]];
      try (rewrite E in Ht; contradiction). exact E.
  - intros t Ht. exact (threads_progress _ _ _ _ _ _ _ _ _ _ _ _ Hi Ht).
  - intros Hs. exact (flush_progress _ _ _ Hp Hit _ _ _ _ _ _ _ _ (small_no_fail _ _ _ _ _ Ha Hit Hv Hc Hs) Hi).
Qed.

Example C24_no_deadlock_example : exists x,
  concurrent sample_env sample_args sample_start sample_hist1 x /\
  flush_step sample_env x = None /\ exists h' x', thread_step sample_env x 1 = Some (h', x').
Proof.
  destruct sample_states as (x0 & x1 & x2 & h & _ & _ & _ & _ & _ & C2 & _ & _ & H6 & H7 & _).
  exists x2. split; [exact C2|]. split; [exact H6|].
  destruct (C24_no_deadlock _ _ _ _ _ sample_env_ok sample_args_good sample_start_valid C2) as (H & _).
  destruct (step_or_wait sample_env x2 1) as [E|[E|[(_ & k & v & E)|(_ & k & v & E)]]];
    [rewrite E in H7; discriminate|exact E|rewrite E in H7; discriminate..].
Qed.

(** C24: a bucket of the new buckets stays there while a thread uses it. *)
Theorem C24_bucket_in_use_stays : forall e a l h x t n b,
  iter_ok e -> good_args a -> Forall (valid_op (ca_key_size a)) l ->
  concurrent e a l h x ->
  uses (x_th x t) = Some (n, b) -> cache_find (st_c1 (x_s x)) n = Some b.
Proof.
  intros e a l h x t n b Hit Ha Hv Hc.
  destruct (conc_inv e a l h x Ha Hit Hv Hc) as (recs & T & A & m & f & _ & Hi).
  eapply uses_cached; eauto.
Qed.

Example C24_bucket_in_use_example : exists x b,
  concurrent sample_env sample_args sample_start sample_hist1 x /\ uses (x_th x 5) = Some (3, b).
Proof.
  destruct sample_states as (x0 & x1 & x2 & h & _ & _ & _ & _ & _ & C2 & _ & _ & _ & _ & _ & b & Hb). eauto.
Qed.

(** ** C25 *)
(** C25.  While a thread that has decided to read bucket [n] of the key file is at it, the
    flush does not write that bucket. *)
Theorem C25_bucket_not_written : forall e a l h x t n g ap off d,
  iter_ok e -> good_args a -> Forall (valid_op (ca_key_size a)) l ->
  concurrent e a l h x ->
  hold (x_th x t) = Some (n, g) ->
  flush_io (x_fl x) = Some (IoWrite FKey ap off d) ->
  off + blen d <= (n + 1) * ca_block_size a \/ (n + 2) * ca_block_size a <= off.
Proof.
  intros e a l h x t n g ap off d Hit Ha Hv Hc Hh Ho. destruct (good_args_ok a Ha) as (Hp & _).
  destruct (conc_inv e a l h x Ha Hit Hv Hc) as (recs & T & A & m & f & _ & Hi).
  exact (no_write _ _ _ Hp _ _ _ _ _ _ _ _ _ _ _ _ _ _ Hi Hh Ho).
Qed.

Example C25_bucket_not_written_example : exists x d,
  concurrent sample_env sample_args sample_start (sample_hist1 ++ [HRet 1 (OFound (sample_val 5))]) x /\
  hold (x_th x 4) = Some (0, 1) /\ flush_io (x_fl x) = Some (IoWrite FKey false 624 d) /\ blen d = 104.
Proof. destruct sample_writing as (x & H1 & H2 & _ & d & H3 & H4). exists x, d. auto. Qed.

(** C25: no two operations on files that could be made at the same moment touch the same
    byte, one of them changing it.  (This is what allows to treat single operations as
    atomic.) *)
Theorem C25_no_race : forall e a l h x t o,
  iter_ok e -> good_args a -> Forall (valid_op (ca_key_size a)) l ->
  concurrent e a l h x ->
  thread_io (x_th x t) = Some o ->
  (forall o', flush_io (x_fl x) = Some o' -> ~ conflict o o') /\
  (forall u o', u <> t -> thread_io (x_th x u) = Some o' -> ~ conflict o o').
Proof.
  intros e a l h x t o Hit Ha Hv Hc Ho. destruct (good_args_ok a Ha) as (Hp & _).
  destruct (conc_inv e a l h x Ha Hit Hv Hc) as (recs & T & A & m & f & _ & Hi). split.
  - intros o' Ho'. exact (no_conflict _ _ _ Hp _ _ _ _ _ _ _ _ _ _ _ Hi Ho Ho').
  - intros u o' _ Ho'. exact (threads_no_conflict _ _ _ _ _ _ _ _ _ _ _ _ _ _ _ Hi Ho Ho').
Qed.

Example C25_no_race_example : exists x o o',
  concurrent sample_env sample_args sample_start (sample_hist1 ++ [HRet 1 (OFound (sample_val 5))]) x /\
  thread_io (x_th x 4) = Some o /\ flush_io (x_fl x) = Some o' /\ changes o' = true.
Proof. destruct sample_writing as (x & H1 & _ & H2 & d & H3 & _). eexists _, _, _. eauto. Qed.

(** C25: before the flush writes buckets, it waits exactly until no thread is reading a
    bucket of the key file on the strength of what it saw before the new buckets were
    published: [x0] is the state before the publication, [x1] the one after it, and [x2] a
    later one in which the same flush has come to its wait.  Threads that start to read a
    bucket after the publication do not make it wait. *)
Theorem C25_waits_exactly : forall e a l h x0 st x1 h' x2,
  iter_ok e -> good_args a -> Forall (valid_op (ca_key_size a)) l ->
  concurrent e a l h x0 -> x_fl x0 = FlData (Ret (Ok st)) -> flush_step e x0 = Some x1 ->
  xexec e x1 h' x2 -> x_fl x2 = FlWait -> g_gen (x_g x2) = g_gen (x_g x1) ->
  (flush_step e x2 = None <->
   exists t n g, hold (x_th x0 t) = Some (n, g) /\ hold (x_th x2 t) = Some (n, g)).
Proof.
  intros e a l h x0 st x1 h' x2 Hit Ha Hv Hc Hfl Hf Hx Hfl2 Hg.
  assert (Hc2 : concurrent e a l (h ++ h') x2).
  { destruct Hc as (w & s & Hl & Hx0). exists w, s. split; auto. eapply xexec_app; [|exact Hx].
    rewrite <- (app_nil_r h). eapply xe_step; [exact Hx0|]. apply xs_flush. exact Hf. }
  destruct (conc_inv e a l _ x2 Ha Hit Hv Hc2) as (recs & T & A & m & f & _ & Hi).
  destruct (conc_inv e a l _ x0 Ha Hit Hv Hc) as (recs0 & T0 & A0 & m0 & f0 & _ & Hi0).
  rewrite (waits_exactly _ _ _ _ _ _ _ _ _ _ _ Hi Hfl2).
  assert (G : g_gen (x_g x1) = g_gen (x_g x0) + 1 /\ x_th x1 = x_th x0).
  { unfold flush_step in Hf. rewrite Hfl in Hf. destruct (x_m x0 =? 0); [|discriminate]. injection Hf as <-. auto. }
  destruct G as [G1 G2]. destruct (held_since _ _ _ _ Hx) as [_ Hsince]. rewrite Hg. split.
  - intros (t & n & g & Hh & Hlt). exists t, n, g. split; auto. rewrite <- G2. auto.
  - intros (t & n & g & Hh0 & Hh). exists t, n, g. split; auto.
    pose proof (hold_tok _ _ _ _ _ _ _ _ _ _ _ _ (xi_th _ _ _ _ _ _ _ _ _ _ _ Hi0 t) Hh0) as (H1 & _). lia.
Qed.

Example C25_waits_example : exists x0 st x1 x2 h',
  concurrent sample_env sample_args sample_start sample_hist0 x0 /\ x_fl x0 = FlData (Ret (Ok st)) /\
  flush_step sample_env x0 = Some x1 /\ xexec sample_env x1 h' x2 /\ x_fl x2 = FlWait /\
  g_gen (x_g x2) = g_gen (x_g x1) /\ flush_step sample_env x2 = None /\
  hold (x_th x0 1) = Some (5, 0) /\ hold (x_th x2 1) = Some (5, 0) /\ hold (x_th x2 4) = Some (0, 1).
Proof.
  destruct sample_states as (x0 & x1 & x2 & h & C0 & (st & Hst) & H1 & H2 & H3 & C2 & H4 & H5 & H6 & H7 & H8 & _).
  exists x0, st, x1, x2, h. splits; auto.
Qed.

Print Assumptions C24_linearizable.
Print Assumptions C24_insert_then_fetch.
Print Assumptions C24_no_invented_value.
Print Assumptions C24_quiet_store.
Print Assumptions C24_no_deadlock.
Print Assumptions C24_bucket_in_use_stays.
Print Assumptions C25_bucket_not_written.
Print Assumptions C25_no_race.
Print Assumptions C25_waits_exactly.
