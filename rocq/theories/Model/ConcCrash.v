(** A store used by several threads, on a machine that may stop at any moment. *)
From Verif Require Import Model.Bytes Model.Err Model.Format Model.IO Model.Bucket Model.Pool Model.Recover
  Model.Create Model.Store Spec SpecLin SpecDurable Model.History Model.Crash Model.Events Model.Concurrent.

(** The store, its files and threads, and what may be found on the disk
    (not code of the project). *)
Record cmach := CMach { cm_x : xst; cm_disk : surv }.

(** What the file operation that is made in a transition, if any, does to the disk
    (not code of the project). *)
Definition io_disk (o : option io) (w : world) (S : surv) : surv :=
  match o with Some o => sexec log_in_order o w S | None => S end.

(** What is seen of a transition of the flush: flush(),
    include/nudb/impl/basic_store.ipp:757-804, begins when it finds p1_ with m_ locked (589,
    or 771 if there is nothing to do), and ends when commit(), 580-755, is through. *)
Definition flush_seen (x x' : xst) : list dev :=
  match x_fl x, x_fl x' with
  | FlIdle, FlIdle => [DBegin; DEnd]
  | FlIdle, _ => [DBegin]
  | _, FlIdle => [DEnd]
  | _, _ => []
  end.

(** Transitions: those of Model/Concurrent.v; and the machine stops, recovery may be
    interrupted any number of times, and in the end open()
    (include/nudb/impl/basic_store.ipp:117-188) returns. *)
Inductive cstep (e : env) : cmach -> list dev -> cmach -> Prop :=
| cs_call x S t c s :
    x_th x t = CIdle -> valid_op (kh_key_size (st_kh (x_s x))) c -> call_state c = Some s ->
    cstep e (CMach x S) [DEv (HCall t c)] (CMach (goto x t s) S)
| cs_thread x S t h x' :
    thread_step e x t = Some (h, x') ->
    cstep e (CMach x S) (map DEv h) (CMach x' (io_disk (thread_io (x_th x t)) (x_w x) S))
| cs_flush x S x' :
    flush_step e x = Some x' ->
    cstep e (CMach x S) (flush_seen x x') (CMach x' (io_disk (flush_io (x_fl x)) (x_w x) S))
| cs_stop x S w1 w2 w3 s3 :
    on_disk S w1 -> interrupted log_in_order e w1 w2 -> run (store_open e) w2 = (w3, Ok s3) ->
    cstep e (CMach x S) [DStop]
      (CMach (xinit s3 w3) (srun log_in_order (store_open e) w2 (durable w2))).

Inductive cexec (e : env) : cmach -> list dev -> cmach -> Prop :=
| ce_nil c : cexec e c [] c
| ce_step c h c1 h' c2 : cexec e c h c1 -> cstep e c1 h' c2 -> cexec e c (h ++ h') c2.

(** A database is made by create(), opened, and used by several threads; [h] is seen of
    that. *)
Definition durable_use (e : env) (a : create_args) (h : list dev) (c : cmach) : Prop :=
  exists M, started e a M /\ cexec e (CMach (xinit (m_store M) (m_files M)) (m_disk M)) h c.
