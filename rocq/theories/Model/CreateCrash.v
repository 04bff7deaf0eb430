(** Stopping the machine during create() (include/nudb/impl/create.ipp:43-156) and
    during the attempts to open what it left, operations failing meanwhile.  This
    file describes the environment of the library, not library code. *)
From Verif Require Import Model.Bytes Model.Err Model.IO Model.Bucket Model.Recover
  Model.Store Model.Crash.

(** The changes of every file reach the disk in order. *)
Definition all_in_order (f : fname) : bool := true.

(** [w'] may be found when the machine stops at some point of [p], any of whose
    operations may have failed. *)
Definition fcrash (ord : fname -> bool) {A} (p : prog A) (w : world) (S : surv) (w' : world) : Prop :=
  exists p1 w1 S1, fsteps ord p w S p1 w1 S1 /\ on_disk S1 w'.

(** [w'] is left by any number of calls of recover()
    (include/nudb/impl/recover.ipp:24-205) or open()
    (include/nudb/impl/basic_store.ipp:117-188) made for [w], each stopped at some
    point, or finished, or failed. *)
Inductive retried (ord : fname -> bool) (e : env) : world -> world -> Prop :=
| retried_none w : retried ord e w w
| retried_recover w w1 w' :
    fcrash ord (recover e) w (durable w) w1 -> retried ord e w1 w' -> retried ord e w w'
| retried_open w w1 w' :
    fcrash ord (store_open e) w (durable w) w1 -> retried ord e w1 w' -> retried ord e w w'.
