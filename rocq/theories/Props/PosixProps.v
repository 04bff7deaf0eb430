(** C33: partial transfers and interrupted system calls. *)
From Verif Require Import Model.Bytes Model.Err Model.IO Model.Posix Proofs.PosixFacts.

(** C33, reading.  Whatever the system answers, a read that returns success has
    stored exactly the requested bytes, which lie inside the file; short_read is
    returned only for a range that does not; any other error was reported by the
    system. *)
Theorem C33_read : forall os c off len,
  match posix_read os c off len [] with
  | (Done, b) => b = bsub off len c /\ (len = 0 \/ off + len <= blen c)
  | (Short, _) => 0 < len /\ blen c < off + len
  | (Failed ev, _) => In (SysErr ev) os /\ ev <> EINTR
  | (Waiting, _) => True
  end.
Proof.
  intros os c off len. pose proof (posix_read_ok os c off len []) as H.
  destruct (posix_read os c off len []) as [[| | |ev] b]; tauto.
Qed.

(** C33, writing.  A write that returns success has written exactly the given bytes at
    the given place; one that fails (or has not returned yet) has written a proper
    prefix of them there.  O_APPEND files are written at their end. *)
Theorem C33_write : forall ap os c off d,
  (ap = true -> off = blen c) ->
  let wrote x := if blen x =? 0 then c else bwrite off x c in
  match posix_write ap os c off d with
  | (Done, c') => c' = wrote d
  | (Short, _) => False
  | (Failed ev, c') => In (SysErr ev) os /\ ev <> EINTR /\
      exists n, n < blen d /\ c' = wrote (btake n d)
  | (Waiting, c') => exists n, n < blen d /\ c' = wrote (btake n d)
  end.
Proof.
  intros ap os c off d Ha. pose proof (posix_write_ok ap os c off d Ha) as H.
  unfold pwritten in H. replace (if ap then blen c else off) with off in H by (destruct ap; auto).
  exact H.
Qed.

(** C33.  A finished loop has the effect and result of the single operation the
    rest of the model uses (Model/IO.v). *)
Theorem C33_read_is_model : forall os w f c off len, wget w f = Some c ->
  match posix_read os c off len [] with
  | (Done, b) => exec (IoRead f off len) w = (w, ROk 0 b)
  | (Short, _) => exec (IoRead f off len) w = (w, RErr short_read)
  | (Failed ev, _) => In (SysErr ev) os /\ ev <> EINTR
  | (Waiting, _) => True
  end.
Proof. exact posix_read_exec. Qed.

Theorem C33_write_is_model : forall ap os w f c off d,
  wget w f = Some c -> (ap = true -> off = blen c) -> 0 < blen d ->
  match posix_write ap os c off d with
  | (Done, c') => exec (IoWrite f ap off d) w = (wset w f (Some c'), ROk 0 [])
  | (Short, _) => False
  | (Failed ev, c') => In (SysErr ev) os /\ ev <> EINTR /\
      (c' = c \/ exists n, 0 < n < blen d /\
         exec (IoWrite f ap off (btake n d)) w = (wset w f (Some c'), ROk 0 []))
  | (Waiting, c') => c' = c \/ exists n, 0 < n < blen d /\
      exec (IoWrite f ap off (btake n d)) w = (wset w f (Some c'), ROk 0 [])
  end.
Proof. exact posix_write_exec. Qed.

(** C33.  The read loop ends after at most as many answers other than EINTR as bytes
    requested, plus one; the write loop after as many that fail or transfer
    something. *)
Theorem C33_terminates : forall os c off len d ap,
  (len < blen (answered os) -> fst (posix_read os c off len []) <> Waiting) /\
  (blen d < blen (productive os) -> fst (posix_write ap os c off d) <> Waiting).
Proof.
  intros os c off len d ap. split; [exact (posix_read_terminates os c off len [])|exact (posix_write_terminates ap os c off d)].
Qed.

(** sync() and trunc() retry after EINTR and report every other error. *)
Theorem C33_retry : forall os,
  match posix_retry os with
  | Waiting => Forall (fun a => a = SysErr EINTR) os
  | Failed ev => In (SysErr ev) os /\ ev <> EINTR
  | Done => exists n, In (SysN n) os
  | Short => False
  end.
Proof. exact posix_retry_ok. Qed.

(** Partial transfers and interruptions. *)
Example C33_read_example :
  posix_read [SysN 2; SysErr EINTR; SysN 1; SysN 100] [10; 11; 12; 13; 14; 15] 1 5 [] =
    (Done, [11; 12; 13; 14; 15]) /\
  posix_read [SysN 2; SysErr EINTR; SysN 100; SysN 7] [10; 11; 12; 13] 1 5 [] = (Short, [11; 12; 13]) /\
  posix_read [SysN 2; SysErr 5] [10; 11; 12; 13] 1 3 [] = (Failed 5, [11; 12]).
Proof. vm_compute. auto. Qed.

Example C33_write_example :
  posix_write false [SysN 1; SysErr EINTR; SysN 0; SysN 9] [1; 2; 3; 4; 5] 1 [7; 8; 9] =
    (Done, [1; 7; 8; 9; 5]) /\
  posix_write true [SysN 1; SysErr 28] [1; 2] 2 [7; 8; 9] = (Failed 28, [1; 2; 7]) /\
  posix_write false [SysN 1; SysN 5] [1; 2] 4 [7; 8; 9] = (Done, [1; 2; 0; 0; 7; 8; 9]).
Proof. vm_compute. auto. Qed.

Print Assumptions C33_read.
Print Assumptions C33_write.
Print Assumptions C33_read_is_model.
Print Assumptions C33_write_is_model.
Print Assumptions C33_terminates.
Print Assumptions C33_retry.
