(** Stopping the machine, and failing file operations.
    What POSIX leaves open about files after a power failure is modelled by a set
    of possible contents for every file.  This file describes the environment of
    the library, not library code; the operations are those of
    include/nudb/impl/posix_file.ipp, sync being fsync/fdatasync (169-183). *)
From Verif Require Import Model.Bytes Model.Err Model.IO Model.Bucket Model.Recover
  Model.Store.

(** For each file the contents that may be found if the machine stops now;
    [None] is absence of the file. *)
Definition surv := fname -> option bytes -> Prop.

(** Everything has reached the disk. *)
Definition durable (w : world) : surv := fun f c => c = wget w f.

(** The files found after the machine stopped. *)
Definition on_disk (S : surv) (w : world) : Prop := forall f, S f (wget w f).

Definition fname_eqb (f g : fname) : bool :=
  match f, g with FDat, FDat | FKey, FKey | FLog, FLog => true | _, _ => false end.

Definition sset (S : surv) (f : fname) (P : option bytes -> Prop) : surv :=
  fun g => if fname_eqb f g then P else S g.

(** [y] with an arbitrary part of a write of [len] bytes at [off]: the file may or
    may not have grown, the bytes written to (and those between the old end and
    the write) may hold anything, the others are unchanged. *)
Definition torn_write (off len : N) (y y' : bytes) : Prop :=
  blen y <= blen y' <= N.max (blen y) (off + len) /\
  forall i, i < blen y -> i < off \/ off + len <= i -> nthN y' i 0 = nthN y i 0.

(** [y] with an arbitrary part of a truncation (or extension) to [n]. *)
Definition torn_trunc (n : N) (y y' : bytes) : Prop :=
  N.min n (blen y) <= blen y' <= N.max n (blen y) /\
  forall i, i < blen y -> i < blen y' -> nthN y' i 0 = nthN y i 0.

(** Effect of a successful operation [o], made when the running system sees the
    files [w], on what may be found on the disk.  Until a sync of the file, any
    subset of the changes made since the last sync may be there, each torn
    arbitrarily.  [ord f] says that the changes of file [f] reach the disk in
    order: an appended piece survives as a prefix, and only when all earlier
    changes have; a truncation is atomic.  Creating and erasing a file may also
    be lost. *)
Definition sexec (ord : fname -> bool) (o : io) (w : world) (S : surv) : surv :=
  match o with
  | IoOpen _ | IoSize _ | IoRead _ _ _ => S
  | IoCreate f =>
    match wget w f with
    | Some _ => S
    | None => sset S f (fun c => S f c \/ c = Some [])
    end
  | IoErase f =>
    match wget w f with
    | Some _ => sset S f (fun c => S f c \/ c = None)
    | None => S
    end
  | IoWrite f ap off d =>
    match wget w f with
    | Some x =>
      if ap && negb (off =? blen x) then S
      else sset S f (fun c => S f c \/
        if ord f then exists n, c = Some (bwrite off (btake n d) x)
        else exists y y', S f (Some y) /\ c = Some y' /\ torn_write off (blen d) y y')
    | None => S
    end
  | IoSync f =>
    match wget w f with
    | Some x => sset S f (fun c => c = Some x)
    | None => S
    end
  | IoTrunc f n =>
    match wget w f with
    | Some x =>
      sset S f (fun c => S f c \/
        if ord f then c = Some (btrunc n x)
        else exists y y', S f (Some y) /\ c = Some y' /\ torn_trunc n y y')
    | None => S
    end
  end.

(** The assumption of the crash theorems: the log is written in order; nothing is
    assumed about the data and key files. *)
Definition log_in_order (f : fname) : bool := match f with FLog => true | _ => false end.

(** No assumption about any file. *)
Definition no_order (f : fname) : bool := false.

(** Executing a program operation by operation. *)
Inductive steps (ord : fname -> bool) {A} :
    prog A -> world -> surv -> prog A -> world -> surv -> Prop :=
| steps_here p w S : steps ord p w S p w S
| steps_next o k w S p' w' S' :
    steps ord (k (snd (exec o w))) (fst (exec o w)) (sexec ord o w S) p' w' S' ->
    steps ord (Do o k) w S p' w' S'.

(** What a program does to the disk when it is not stopped. *)
Fixpoint srun (ord : fname -> bool) {A} (p : prog A) (w : world) (S : surv) : surv :=
  match p with
  | Ret _ => S
  | Do o k => srun ord (k (snd (exec o w))) (fst (exec o w)) (sexec ord o w S)
  end.

(** [w'] may be found when the machine stops at some point of [p] (before, between
    or after its operations). *)
Definition crash (ord : fname -> bool) {A} (p : prog A) (w : world) (S : surv) (w' : world) : Prop :=
  exists p1 w1 S1, steps ord p w S p1 w1 S1 /\ on_disk S1 w'.

(** [w'] is left by any number of recoveries of [w], made by recover()
    (include/nudb/impl/recover.ipp:24-205) or by open()
    (include/nudb/impl/basic_store.ipp:117-188), each stopped at some point.
    Everything found on the disk when a recovery starts is taken to be on the
    disk for good. *)
Inductive interrupted (ord : fname -> bool) (e : env) : world -> world -> Prop :=
| int_none w : interrupted ord e w w
| int_recover w w1 w' :
    crash ord (recover e) w (durable w) w1 -> interrupted ord e w1 w' ->
    interrupted ord e w w'
| int_open w w1 w' :
    crash ord (store_open e) w (durable w) w1 -> interrupted ord e w1 w' ->
    interrupted ord e w w'.

(** Files after a failed operation: any part of it may have been done. *)
Definition failed (ord : fname -> bool) (o : io) (w w' : world) : Prop :=
  match o with
  | IoOpen _ | IoSize _ | IoRead _ _ _ | IoSync _ => w' = w
  | IoCreate _ | IoErase _ => w' = w \/ w' = fst (exec o w)
  | IoWrite f ap off d =>
    match wget w f with
    | Some x =>
      if ap && negb (off =? blen x) then w' = w
      else exists x', w' = wset w f (Some x') /\
        if ord f then x' = x \/ exists n, x' = bwrite off (btake n d) x
        else torn_write off (blen d) x x'
    | None => w' = w
    end
  | IoTrunc f n =>
    match wget w f with
    | Some x =>
      exists x', w' = wset w f (Some x') /\
        if ord f then x' = x \/ x' = btrunc n x else torn_trunc n x x'
    | None => w' = w
    end
  end.

(** A failed sync guarantees nothing; the other operations may have had their
    effect. *)
Definition sfail (ord : fname -> bool) (o : io) (w : world) (S : surv) : surv :=
  match o with IoSync _ => S | _ => sexec ord o w S end.

(** Executing a program when any operation may fail, with any system error. *)
Inductive fsteps (ord : fname -> bool) {A} :
    prog A -> world -> surv -> prog A -> world -> surv -> Prop :=
| fsteps_here p w S : fsteps ord p w S p w S
| fsteps_ok o k w S p' w' S' :
    fsteps ord (k (snd (exec o w))) (fst (exec o w)) (sexec ord o w S) p' w' S' ->
    fsteps ord (Do o k) w S p' w' S'
| fsteps_fail o k w S n w1 p' w' S' :
    failed ord o w w1 ->
    fsteps ord (k (RErr (EIO n))) w1 (sfail ord o w S) p' w' S' ->
    fsteps ord (Do o k) w S p' w' S'.
