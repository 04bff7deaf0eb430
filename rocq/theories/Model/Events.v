(** Histories in which the machine is stopped and the database opened again. *)
From Verif Require Import Model.Bytes Model.Err Model.IO Model.Bucket Model.Recover Model.Create Model.Store
  Model.History Model.Crash Spec SpecCrash.

(** An open store: the files as the running system sees them, what may be found
    on the disk, and the state of the store. *)
Record mach := Mach { m_files : world; m_disk : surv; m_store : store }.

(** File::size() returns a 64 bit number (include/nudb/impl/posix_file.ipp:100-113),
    so no file is longer. *)
Definition files_fit (w : world) : Prop :=
  forall f c, wget w f = Some c -> blen c < 18446744073709551616.

(** One event.  After a stop recovery may itself be stopped any number of times
    before open() returns. *)
Inductive happens (e : env) : mach -> event -> list out -> mach -> Prop :=
| hp_call w S s c w' s' o :
    run (op_prog e s c) w = (w', (Some s', o)) -> o <> OAborted ->
    happens e (Mach w S s) (Call c) [o] (Mach w' (srun log_in_order (op_prog e s c) w S) s')
| hp_stop w S s c w1 w2 w3 s3 :
    crash log_in_order (op_prog e s c) w S w1 ->
    interrupted log_in_order e w1 w2 ->
    run (store_open e) w2 = (w3, Ok s3) ->
    happens e (Mach w S s) (Stop c) [] (Mach w3 (srun log_in_order (store_open e) w2 (durable w2)) s3).

(** A sequence of events with the answers of the calls that return. *)
Inductive happened (e : env) : mach -> list event -> list out -> mach -> Prop :=
| hd_nil M : happened e M [] [] M
| hd_cons M ev o M1 evs os M2 :
    happens e M ev o M1 -> happened e M1 evs os M2 -> happened e M (ev :: evs) (o ++ os) M2.

(** A database just made by create() and opened. *)
Definition started (e : env) (a : create_args) (M : mach) : Prop :=
  exists w1 w2 s,
    run (create e a) no_files = (w1, Ok tt) /\ run (store_open e) w1 = (w2, Ok s) /\
    M = Mach w2 (srun log_in_order (store_open e) w1
                  (srun log_in_order (create e a) no_files (durable no_files))) s.

(** The data and key files of two worlds are the same, byte for byte. *)
Definition same_files (w w' : world) : Prop := w_dat w = w_dat w' /\ w_key w = w_key w'.
