(** Specification of functions whose file operations fail, and of recovery that is repeated after it failed.
    The only parts of the model used are the programs of file operations and the failures of Model/Crash.v. *)
From Verif Require Import Model.Bytes Model.Err Model.IO Model.Bucket Model.Recover Model.Store Model.Crash SpecHeader.

(** The chances to fail that the simulation has in one operation: a write may fail before anything is
    written and after half of it was written. *)
Definition chances (o : io) : N :=
  match o with
  | IoOpen _ | IoCreate _ | IoErase _ | IoSize _ => 0
  | IoRead _ _ _ | IoSync _ | IoTrunc _ _ => 1
  | IoWrite _ _ _ _ => 2
  end.

(** The files [v] after the operation [o] on files [u] failed at its [i]-th chance: unchanged, or with half of what was
    to be written. *)
Definition failed_at (o : io) (i : N) (u v : world) : Prop :=
  match o with
  | IoWrite f ap off d =>
    if i =? 1 then v = u else v = fst (exec (IoWrite f ap off (btake ((blen d + 1) / 2) d)) u)
  | _ => v = u
  end.

(** [reach p w m q v]: the program [p], started with files [w] and going on without failures, comes to the point
    where [q] remains to be done, with files [v]; there were [m] chances to fail. *)
Inductive reach {A} : prog A -> world -> N -> prog A -> world -> Prop :=
| reach_here p w : reach p w 0 p w
| reach_next o k w m q v :
    reach (k (snd (exec o w))) (fst (exec o w)) m q v -> reach (Do o k) w (chances o + m) q v.

(** The log file, of which the header are 62 bytes, is read in one piece of at most 1024 blocks; the block size is the
    number at offset 44 of the key file. *)
Definition log_in_one_read (w : world) : Prop :=
  forall k g, w_key w = Some k -> w_log w = Some g -> bytes_ok k /\ blen g <= 62 + 1024 * num_at 44 2 k.

(** The read of a part of the log file behind its header. *)
Definition reads_records (o : io) : bool :=
  match o with IoRead FLog off _ => negb (off =? 0) | _ => false end.

(** Executing a program when any operation may fail, except those in [safe]; compare [fsteps] in Model/Crash.v. *)
Inductive fsteps_but (safe : io -> bool) (ord : fname -> bool) {A} :
    prog A -> world -> surv -> prog A -> world -> surv -> Prop :=
| fb_here p w S : fsteps_but safe ord p w S p w S
| fb_ok o k w S p' w' S' :
    fsteps_but safe ord (k (snd (exec o w))) (fst (exec o w)) (sexec ord o w S) p' w' S' ->
    fsteps_but safe ord (Do o k) w S p' w' S'
| fb_fail o k w S n w1 p' w' S' :
    safe o = false -> failed ord o w w1 ->
    fsteps_but safe ord (k (RErr (EIO n))) w1 (sfail ord o w S) p' w' S' ->
    fsteps_but safe ord (Do o k) w S p' w' S'.

(** One attempt of recover() or open(): the log is read in one piece and any operation may fail, or any operation may
    fail except the reads of the records of the log. *)
Definition tried {A} (p : prog A) (w w1 : world) (S1 : surv) : Prop :=
  exists q, log_in_one_read w /\ fsteps log_in_order p w (durable w) q w1 S1 \/
            fsteps_but reads_records log_in_order p w (durable w) q w1 S1.
Definition attempt (e : env) (w w1 : world) (S1 : surv) : Prop :=
  tried (recover e) w w1 S1 \/ tried (store_open e) w w1 S1.

(** recover() or open() is tried any number of times; each time operations may fail as in [attempt], the program or the machine may stop at
    any point.  Afterwards the files are as the program left them or, when the machine stopped, as they are found on the
    disk. *)
Inductive retried (e : env) : world -> world -> Prop :=
| rt_none w : retried e w w
| rt_again w w1 S1 v w' :
    attempt e w w1 S1 -> v = w1 \/ on_disk S1 v ->
    retried e v w' -> retried e w w'.
