(** A store used by several threads, on a machine that may stop at any moment and whose file
    operations may fail.  An operation that fails may have had any part of its effect
    ([failed], Model/Crash.v); which operations fail is not restricted. *)
From Verif Require Import Model.Bytes Model.Err Model.Format Model.IO Model.Bucket Model.Pool Model.Recover
  Model.Create Model.Store Spec SpecLin SpecDurable SpecFail Model.History Model.Crash Model.Events
  Model.Concurrent Model.ConcCrash.

(** The store, its files and threads; what may be found on the disk (not code of the project);
    ec_ if ecb_ is set (include/nudb/basic_store.hpp:112-113); which threads have been
    through the test of ecb_ at the beginning of their call. *)
Record fmach := FMach { fm_x : xst; fm_disk : surv; fm_ec : option err; fm_in : N -> bool }.

(** A thread that is still at the beginning of fetch() or insert(), where ecb_ is tested and
    nothing is locked: include/nudb/impl/basic_store.ipp:231-235 and 278-282. *)
Definition at_entry (c : cth) : bool := match c with CFetch _ | CInsert _ _ => true | _ => false end.

(** What a call answers that finds ecb_ set: include/nudb/impl/basic_store.ipp:233, 280. *)
Definition refused_out (c : cth) (er : err) : out :=
  match c with CInsert _ _ => insert_out (Er er) | _ => fetch_out (Er er) end.

(** The read that a thread is about to make fails with [er]: `if(ec) return` in fetch(),
    exists() and insert(), include/nudb/impl/basic_store.ipp:261-262, 303-304, 322-326,
    387-388, 404-405, 438-439, 450-451. *)
Definition thread_failed (c : cth) (er : err) : cth :=
  match c with
  | CFetchC n b (Do _ q) => CFetchC n b (q (RErr er))
  | CFetchK n g (Do _ q) => CFetchK n g (q (RErr er))
  | CInsC k v n b (Do _ q) => CInsC k v n b (q (RErr er))
  | CInsD k v (Do _ q) => CInsD k v (q (RErr er))
  | CInsK k v n g (Do _ q) => CInsK k v n g (q (RErr er))
  | c => c
  end.

(** The operation that the flush is about to make fails with [er]: `if(ec) return` in
    commit(), include/nudb/impl/basic_store.ipp:613-749. *)
Definition flush_failed (f : fls) (er : err) : fls :=
  match f with
  | FlData (Do _ q) => FlData (q (RErr er))
  | FlLog (Do _ q) => FlLog (q (RErr er))
  | FlKey (Do _ q) => FlKey (q (RErr er))
  | f => f
  end.

(** commit() has returned with an error in ec_. *)
Definition flush_error (f : fls) : option err :=
  match f with
  | FlData (Ret (Er er)) | FlLog (Ret (Er er)) | FlKey (Ret (Er er)) => Some er
  | _ => None
  end.

Definition bset (f : N -> bool) (t : N) (b : bool) : N -> bool := fun u => if u =? t then b else f u.

(** Transitions:
    - a call, the test of ecb_, what a thread does after it;
    - a read of a thread fails; with it, in the same transition, the thread gives back its
      locks (that it fails later instead would make no difference, since it changes nothing);
    - a transition of the flush; one of its operations fails; flush() then sets ecb_
      (include/nudb/impl/basic_store.ipp:775-779), unless it was an assertion that failed:
      that stops the process, [fs_stop] (the other threads may still do something before
      that);
    - flush() is called again after that: commit() swaps the pools, 589, and returns at 614,
      because ec_ is still set and File::size() does not clear it;
    - the machine stops, as in Model/ConcCrash.v. *)
Inductive fmstep (e : env) : fmach -> list fev -> fmach -> Prop :=
| fs_call x S ec ck t c s :
    x_th x t = CIdle -> valid_op (kh_key_size (st_kh (x_s x))) c -> call_state c = Some s ->
    fmstep e (FMach x S ec ck) [FDev (DEv (HCall t c))] (FMach (goto x t s) S ec (bset ck t false))
| fs_pass x S ck t :
    at_entry (x_th x t) = true -> ck t = false ->
    fmstep e (FMach x S None ck) [] (FMach x S None (bset ck t true))
| fs_refuse x S er ck t :
    at_entry (x_th x t) = true -> ck t = false ->
    fmstep e (FMach x S (Some er) ck) [] (FMach (goto x t (CRet (refused_out (x_th x t) er))) S (Some er) ck)
| fs_thread x S ec ck t h x' :
    at_entry (x_th x t) = false \/ ck t = true ->
    thread_step e x t = Some (h, x') ->
    fmstep e (FMach x S ec ck) (map (fun v => FDev (DEv v)) h)
      (FMach x' (io_disk (thread_io (x_th x t)) (x_w x) S) ec ck)
| fs_thread_fails x S ec ck t o n h x' :
    thread_io (x_th x t) = Some o ->
    thread_step e (goto x t (thread_failed (x_th x t) (EIO n))) t = Some (h, x') ->
    fmstep e (FMach x S ec ck) (FFail t :: map (fun v => FDev (DEv v)) h) (FMach x' S ec ck)
| fs_flush x S ec ck x' :
    flush_step e x = Some x' ->
    fmstep e (FMach x S ec ck) (map FDev (flush_seen x x'))
      (FMach x' (io_disk (flush_io (x_fl x)) (x_w x) S) ec ck)
| fs_flush_fails x S ec ck o n w' :
    flush_io (x_fl x) = Some o -> failed log_in_order o (x_w x) w' ->
    fmstep e (FMach x S ec ck) []
      (FMach (set_fl (set_w x w') (flush_failed (x_fl x) (EIO n))) (sfail log_in_order o (x_w x) S) ec ck)
| fs_flush_error x S ck er :
    flush_error (x_fl x) = Some er -> er <> EAssert ->
    fmstep e (FMach x S None ck) [FErr] (FMach x S (Some er) ck)
| fs_flush_again x S er ck :
    x_m x = 0 -> pool_is_empty (st_p1 (x_s x)) = false ->
    fmstep e (FMach x S (Some er) ck) [] (FMach (set_s x (swap_pools (x_s x))) S (Some er) ck)
| fs_stop x S ec ck w1 w2 w3 s3 :
    on_disk S w1 -> interrupted log_in_order e w1 w2 -> run (store_open e) w2 = (w3, Ok s3) ->
    fmstep e (FMach x S ec ck) [FDev DStop]
      (FMach (xinit s3 w3) (srun log_in_order (store_open e) w2 (durable w2)) None (fun _ => false)).

Inductive fmexec (e : env) : fmach -> list fev -> fmach -> Prop :=
| fe_nil c : fmexec e c [] c
| fe_step c h c1 h' c2 : fmexec e c h c1 -> fmstep e c1 h' c2 -> fmexec e c (h ++ h') c2.

(** A database is made by create(), opened, and used by several threads; [h] is seen of
    that. *)
Definition failing_use (e : env) (a : create_args) (h : list fev) (c : fmach) : Prop :=
  exists M, started e a M /\
    fmexec e (FMach (xinit (m_store M) (m_files M)) (m_disk M) None (fun _ => false)) h c.
