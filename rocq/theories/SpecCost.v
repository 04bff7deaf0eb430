(** What operations cost. *)
From Verif Require Import Model.Bytes Model.Err Model.IO.

(** A read that succeeds gives as many bytes as asked for; apart from this the answers to
    operations are any data, any sizes and any errors. *)
Definition answers (o : io) (r : rsp) : Prop :=
  match o, r with
  | IoRead _ _ len, ROk _ d => blen d = len
  | _, _ => True
  end.

(** [p] may carry out the operations [l], in this order, before it is stopped or ends. *)
Inductive may_run {A} : list io -> prog A -> Prop :=
| mr_none p : may_run [] p
| mr_more o k r l : answers o r -> may_run l (k r) -> may_run (o :: l) (Do o k).

(** The sum of what the operations cost. *)
Definition spent (cost : io -> N) (l : list io) : N := fold_right (fun o n => cost o + n) 0 l.

(** Number of reads and of writes of the key file, of syncs of a file and of all files, of
    changes of a file's size by truncation, and of bytes written to a file. *)
Definition key_reads (o : io) : N := match o with IoRead FKey _ _ => 1 | _ => 0 end.
Definition key_writes (o : io) : N := match o with IoWrite FKey _ _ _ => 1 | _ => 0 end.
Definition syncs (o : io) : N := match o with IoSync _ => 1 | _ => 0 end.
Definition truncations (o : io) : N := match o with IoTrunc _ _ => 1 | _ => 0 end.
Definition log_bytes (o : io) : N := match o with IoWrite FLog _ _ d => blen d | _ => 0 end.

(** The operations that [p] carries out on the files [w] when nothing fails. *)
Fixpoint carried_out {A} (p : prog A) (w : world) : list io :=
  match p with
  | Ret _ => []
  | Do o k => o :: (let '(w', r) := exec o w in carried_out (k r) w')
  end.
