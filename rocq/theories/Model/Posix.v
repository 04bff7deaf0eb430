(** The read, write, sync and trunc loops of posix_file:
    include/nudb/impl/posix_file.ipp. *)
From Verif Require Import Model.Bytes Model.Err.

(** What the operating system does with one call to pread or pwrite: fail with an
    errno, or transfer some bytes.  [SysN n] asks for [n] bytes to be transferred;
    the definitions of pread and pwrite below limit it to what is possible, so that
    every behaviour POSIX allows is that of some [n]. *)
Inductive sys := SysErr (errno : N) | SysN (n : N).

(** EINTR on Linux. *)
Definition EINTR : N := 4.

(** SSIZE_MAX on a 64-bit system. *)
Definition SSIZE_MAX : N := 9223372036854775807.

(** How a loop ends: the system has not answered the next call yet (the answers are
    used up), all bytes transferred, end of file, or a system error. *)
Inductive ending := Waiting | Done | Short | Failed (errno : N).

(** Bytes transferred by pread on the contents [c]: at least one and at most
    [amount] before the end of the file, none at or behind it. *)
Definition pread_count (c : bytes) (off amount n : N) : N :=
  N.min (N.max 1 n) (N.min amount (blen c - off)).

(** read(): include/nudb/impl/posix_file.ipp:114-142.  [os] answers the calls in
    order; [buf] are the bytes stored in the buffer so far. *)
Fixpoint posix_read (os : list sys) (c : bytes) (off len : N) (buf : bytes) : ending * bytes :=
  if len =? 0 then (Done, buf)
  else
  match os with
  | [] => (Waiting, buf)
  | a :: os =>
    let amount := N.min len SSIZE_MAX in
    match a with
    | SysErr ev =>
      if ev =? EINTR then posix_read os c off len buf else (Failed ev, buf)
    | SysN m =>
      let n := pread_count c off amount m in
      if n =? 0 then (Short, buf)
      else posix_read os c (off + n) (len - n) (buf ++ bsub off n c)
    end
  end.

(** Contents after pwrite has transferred the bytes [d]; a gap before the offset reads
    as zeros, and transferring nothing changes nothing.  With O_APPEND ([ap]) Linux
    appends whatever the offset. *)
Definition pwritten (ap : bool) (off : N) (d c : bytes) : bytes :=
  if blen d =? 0 then c else bwrite (if ap then blen c else off) d c.

(** write(): include/nudb/impl/posix_file.ipp:144-167.  pwrite transfers any number
    of bytes up to [amount], possibly none.  Returns the contents of the file. *)
Fixpoint posix_write (ap : bool) (os : list sys) (c : bytes) (off : N) (d : bytes) : ending * bytes :=
  if blen d =? 0 then (Done, c)
  else
  match os with
  | [] => (Waiting, c)
  | a :: os =>
    let amount := N.min (blen d) SSIZE_MAX in
    match a with
    | SysErr ev =>
      if ev =? EINTR then posix_write ap os c off d else (Failed ev, c)
    | SysN m =>
      let n := N.min m amount in
      posix_write ap os (pwritten ap off (btake n d) c) (off + n) (bdrop n d)
    end
  end.

(** sync() and trunc(): include/nudb/impl/posix_file.ipp:169-199; any answer other
    than an error is success. *)
Fixpoint posix_retry (os : list sys) : ending :=
  match os with
  | [] => Waiting
  | SysErr ev :: os => if ev =? EINTR then posix_retry os else Failed ev
  | SysN _ :: _ => Done
  end.
