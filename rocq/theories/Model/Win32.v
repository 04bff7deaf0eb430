(** The read, write and trunc functions of win32_file: include/nudb/impl/win32_file.ipp. *)
From Verif Require Import Model.Bytes Model.Err.

(** What the operating system does with one call to ReadFile or WriteFile: fail with an
    error code, or transfer some bytes.  [WinN n] asks for [n] bytes; the definitions of
    ReadFile and WriteFile below limit that to what is possible, so that every behaviour the
    system may show is that of some answer (not code of the project). *)
Inductive win := WinErr (code : N) | WinN (n : N).

(** ERROR_HANDLE_EOF and ERROR_NEGATIVE_SEEK. *)
Definition HANDLE_EOF : N := 38.
Definition NEGATIVE_SEEK : N := 131.

(** std::numeric_limits<DWORD>::max(). *)
Definition DWORD_MAX : N := 4294967295.

(** How a loop ends: the system has not answered the next call yet (the answers are used up),
    all bytes transferred, short_read, no_space_on_device, or a system error. *)
Inductive wending := WWaiting | WDone | WShort | WNoSpace | WFailed (code : N).

(** ReadFile on contents [c]: before the end of the file at least one byte and at most
    [amount]; at or behind it success with no bytes, or ERROR_HANDLE_EOF, which is not
    reported elsewhere (not code of the project). *)
Definition ReadFile (c : bytes) (off amount : N) (a : win) : N + N :=
  match a with
  | WinErr ev => if (ev =? HANDLE_EOF) && (off <? blen c) then inr (N.min 1 amount) else inl ev
  | WinN n => inr (N.min (N.max 1 n) (N.min amount (blen c - off)))
  end.

(** read(): include/nudb/impl/win32_file.ipp:117-156.  [os] answers the calls in order; [buf]
    are the bytes stored in the buffer so far. *)
Fixpoint win32_read (os : list win) (c : bytes) (off len : N) (buf : bytes) : wending * bytes :=
  if len =? 0 then (WDone, buf)
  else
  match os with
  | [] => (WWaiting, buf)
  | a :: os =>
    let amount := if DWORD_MAX <? len then DWORD_MAX else len in
    match ReadFile c off amount a with
    | inl ev => if negb (ev =? HANDLE_EOF) then (WFailed ev, buf) else (WShort, buf)
    | inr n =>
      if n =? 0 then (WShort, buf)
      else win32_read os c (off + n) (len - n) (buf ++ bsub off n c)
    end
  end.

(** write(): include/nudb/impl/win32_file.ipp:158-193.  WriteFile transfers any number of
    bytes up to [amount]; a gap before the offset reads as zeros, and transferring nothing
    changes nothing.  Returns the contents of the file. *)
Fixpoint win32_write (os : list win) (c : bytes) (off : N) (d : bytes) : wending * bytes :=
  if blen d =? 0 then (WDone, c)
  else
  match os with
  | [] => (WWaiting, c)
  | a :: os =>
    let amount := if DWORD_MAX <? blen d then DWORD_MAX else blen d in
    match a with
    | WinErr ev => (WFailed ev, c)
    | WinN m =>
      let n := N.min m amount in
      if n =? 0 then (WNoSpace, c)
      else win32_write os (bwrite off (btake n d) c) (off + n) (bdrop n d)
    end
  end.

(** trunc(): include/nudb/impl/win32_file.ipp:204-218.  The answers to SetFilePointerEx, which
    refuses negative positions, and SetEndOfFile.  Only for making a file shorter: what a
    longer file holds is not defined by SetEndOfFile. *)
Definition win32_trunc (a1 a2 : option N) (c : bytes) (len : N) : wending * bytes :=
  let a1 := if 9223372036854775808 <=? len then Some NEGATIVE_SEEK else a1 in
  match a1 with
  | Some ev => (WFailed ev, c)
  | None => match a2 with Some ev => (WFailed ev, c) | None => (WDone, btake len c) end
  end.
