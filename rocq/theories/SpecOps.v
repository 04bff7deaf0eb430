(** Which file operations a function may carry out. *)
From Verif Require Import Model.Bytes Model.Err Model.IO.

(** [p] may carry out [o], for some answers of the operations before it: any data, any
    sizes and any errors, whether or not a file system could give them. *)
Inductive may_do {A} (o : io) : prog A -> Prop :=
| md_now k : may_do o (Do o k)
| md_later o' k r : may_do o (k r) -> may_do o (Do o' k).

(** fetch, insert, visit and verify: nothing that changes a file. *)
Definition look_may (o : io) : Prop :=
  match o with
  | IoOpen _ | IoSize _ | IoRead _ _ _ => True
  | _ => False
  end.

(** The background flush, [bs] being the block size: data file and log are only written at
    their ends, the key file only where buckets are, which is after the first block, and the
    log is emptied.  No file is created or erased and only the log is shortened. *)
Definition flush_may (bs : N) (o : io) : Prop :=
  match o with
  | IoOpen _ | IoSize _ | IoRead _ _ _ | IoSync _ => True
  | IoWrite FDat ap _ _ => ap = true
  | IoWrite FLog ap _ _ => ap = true
  | IoWrite FKey ap off _ => ap = false /\ exists n, off = (n + 1) * bs
  | IoTrunc f len => f = FLog /\ len = 0
  | IoCreate _ | IoErase _ => False
  end.

(** close(): a flush, and the log is erased. *)
Definition close_may (bs : N) (o : io) : Prop := flush_may bs o \/ o = IoErase FLog.

(** recover(): the data file is not written and neither created nor erased (it may be
    truncated); the header of the key file, its first 104 bytes, is not overwritten; the log
    is not written but may be emptied and erased.  The key file may be truncated or
    erased. *)
Definition recover_may (o : io) : Prop :=
  match o with
  | IoOpen _ | IoSize _ | IoRead _ _ _ | IoSync _ => True
  | IoWrite f ap off _ => f = FKey /\ ap = false /\ 104 <= off
  | IoTrunc f len => f = FLog -> len = 0
  | IoErase f => f <> FDat
  | IoCreate _ => False
  end.

(** open(): recover(), and the log is created. *)
Definition open_may (o : io) : Prop := recover_may o \/ o = IoCreate FLog.

(** rekey(): the data file is only written at its end; key file and log are created, the
    log is erased and nothing is truncated. *)
Definition rekey_may (o : io) : Prop :=
  match o with
  | IoOpen f => f <> FKey
  | IoSize f => f = FDat
  | IoRead f _ _ => f = FDat
  | IoSync f | IoCreate f => f <> FDat
  | IoWrite FDat ap _ _ | IoWrite FLog ap _ _ => ap = true
  | IoWrite FKey _ _ _ => True
  | IoErase f => f = FLog
  | IoTrunc _ _ => False
  end.
