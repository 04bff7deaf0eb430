(** When the threads and the flush of a store get on, without new calls and without a stop of
    the machine; to say that this comes to an end. *)
From Verif Require Import Model.Bytes Model.Err Model.Format Model.IO Model.Bucket Model.Pool Model.Recover
  Model.Create Model.Store Spec SpecLin SpecDurable SpecFail Model.History Model.Crash Model.Events
  Model.Concurrent Model.ConcCrash Model.ConcFail.

(** Every thread and the flush are where they were.  This is so when the flush finds nothing
    to do: commit() is called only when the pool is not empty,
    include/nudb/impl/basic_store.ipp:769-774. *)
Definition still (x y : xst) : Prop := (forall t, x_th y t = x_th x t) /\ x_fl y = x_fl x.

(** A transition of a thread or of the flush. *)
Definition goes_on (e : env) (x y : xst) : Prop := exists h, xstep e x h y /\ calls h = [] /\ ~ still x y.

(** Nobody is doing anything and nothing waits to be flushed. *)
Definition all_done (x : xst) : Prop :=
  (forall t, x_th x t = CIdle) /\ x_fl x = FlIdle /\ pool_is_empty (st_p1 (x_s x)) = true.

(** The same where operations may fail (Model/ConcFail.v).  A flush that has failed is not
    taken up again: that flush() goes on being called and swaps the pools
    (include/nudb/impl/basic_store.ipp:589, 614) is not counted. *)
Definition fstill (c c' : fmach) : Prop :=
  still (fm_x c) (fm_x c') /\ (forall t, fm_in c' t = fm_in c t) /\ fm_ec c' = fm_ec c.
Definition fgoes_on (e : env) (c c' : fmach) : Prop :=
  exists h, fmstep e c h c' /\ fcalls h = [] /\ ~ In (FDev DStop) h /\ ~ fstill c c'.

(** Every call has been answered; or the machine has stopped after it. *)
Definition answered (h : list hev) : Prop :=
  forall t c h1 h2, h = h1 ++ HCall t c :: h2 -> exists o, In (HRet t o) h2.
Definition fanswered (h : list fev) : Prop :=
  forall t c h1 h2, h = h1 ++ FDev (DEv (HCall t c)) :: h2 ->
  In (FDev DStop) h2 \/ exists o, In (FDev (DEv (HRet t o))) h2.
