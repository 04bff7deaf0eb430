(** C45: partial transfers and errors on Windows. *)
From Verif Require Import Model.Bytes Model.Err Model.IO Model.Win32 Proofs.Win32Facts.

(** C45, reading.  Whatever the system answers, a read that returns success has stored
    exactly the requested bytes, which lie inside the file; short_read is returned only for a
    range that does not; any other error was reported by the system.  It returns after at
    most as many answers as bytes requested. *)
Theorem C45_read : forall os c off len,
  match win32_read os c off len [] with
  | (WDone, b) => b = bsub off len c /\ (len = 0 \/ off + len <= blen c)
  | (WShort, _) => 0 < len /\ blen c < off + len
  | (WNoSpace, _) => False
  | (WFailed ev, _) => In (WinErr ev) os /\ ev <> HANDLE_EOF
  | (WWaiting, _) => blen os < len
  end.
Proof.
  intros os c off len. pose proof (win32_read_ok os c off len []) as H.
  destruct (win32_read os c off len []) as [[| | | |ev] b]; tauto.
Qed.

(** C45, writing.  A write that returns success has written exactly the given bytes at the
    given place; one that fails (or has not returned yet) has written a proper prefix of them
    there.  no_space_on_device is returned only if the system has transferred nothing, any
    other error was reported by it, and the write returns after at most as many answers as
    bytes given. *)
Theorem C45_write : forall os c off d,
  let wrote x := if blen x =? 0 then c else bwrite off x c in
  let prefix c' := exists n, n < blen d /\ c' = wrote (btake n d) in
  match win32_write os c off d with
  | (WDone, c') => c' = wrote d
  | (WShort, _) => False
  | (WNoSpace, c') => In (WinN 0) os /\ prefix c'
  | (WFailed ev, c') => In (WinErr ev) os /\ prefix c'
  | (WWaiting, c') => blen os < blen d /\ prefix c'
  end.
Proof. exact win32_write_ok. Qed.

(** C45.  A finished loop has the effect and result of the single operation the rest of the
    model uses (Model/IO.v), so that what is proved about the store holds on Windows, too. *)
Theorem C45_read_is_model : forall os w f c off len, wget w f = Some c ->
  match win32_read os c off len [] with
  | (WDone, b) => exec (IoRead f off len) w = (w, ROk 0 b)
  | (WShort, _) => exec (IoRead f off len) w = (w, RErr short_read)
  | (WNoSpace, _) => False
  | (WFailed ev, _) => In (WinErr ev) os /\ ev <> HANDLE_EOF
  | (WWaiting, _) => blen os < len
  end.
Proof. exact win32_read_exec. Qed.

Theorem C45_write_is_model : forall ap os w f c off d,
  wget w f = Some c -> (ap = true -> off = blen c) -> 0 < blen d ->
  let partly c' := c' = c \/ exists n, 0 < n < blen d /\
         exec (IoWrite f ap off (btake n d)) w = (wset w f (Some c'), ROk 0 []) in
  match win32_write os c off d with
  | (WDone, c') => exec (IoWrite f ap off d) w = (wset w f (Some c'), ROk 0 [])
  | (WShort, _) => False
  | (WNoSpace, c') => In (WinN 0) os /\ partly c'
  | (WFailed ev, c') => In (WinErr ev) os /\ partly c'
  | (WWaiting, c') => blen os < blen d /\ partly c'
  end.
Proof. exact win32_write_exec. Qed.

(** C45: making a file shorter. *)
Theorem C45_trunc_is_model : forall a1 a2 w f c len,
  wget w f = Some c -> len <= blen c -> len < 9223372036854775808 ->
  match win32_trunc a1 a2 c len with
  | (WDone, c') => exec (IoTrunc f len) w = (wset w f (Some c'), ROk 0 []) /\ a1 = None /\ a2 = None
  | (WFailed ev, c') => c' = c /\ (a1 = Some ev \/ a2 = Some ev)
  | _ => False
  end.
Proof. exact win32_trunc_exec. Qed.

(** Partial transfers, the two ways to report the end of the file, and a full disk. *)
Example C45_read_example :
  win32_read [WinN 2; WinN 1; WinN 100] [10; 11; 12; 13; 14; 15] 1 5 [] = (WDone, [11; 12; 13; 14; 15]) /\
  win32_read [WinN 2; WinN 100; WinErr HANDLE_EOF] [10; 11; 12; 13] 1 5 [] = (WShort, [11; 12; 13]) /\
  win32_read [WinN 2; WinN 100; WinN 7] [10; 11; 12; 13] 1 5 [] = (WShort, [11; 12; 13]) /\
  win32_read [WinN 2; WinErr 5] [10; 11; 12; 13] 1 3 [] = (WFailed 5, [11; 12]).
Proof. vm_compute. auto. Qed.

Example C45_write_example :
  win32_write [WinN 1; WinN 9] [1; 2; 3; 4; 5] 1 [7; 8; 9] = (WDone, [1; 7; 8; 9; 5]) /\
  win32_write [WinN 1; WinErr 5] [1; 2] 2 [7; 8; 9] = (WFailed 5, [1; 2; 7]) /\
  win32_write [WinN 1; WinN 0] [1; 2] 2 [7; 8; 9] = (WNoSpace, [1; 2; 7]) /\
  win32_write [WinN 1; WinN 5] [1; 2] 4 [7; 8; 9] = (WDone, [1; 2; 0; 0; 7; 8; 9]).
Proof. vm_compute. auto. Qed.

Example C45_trunc_example :
  win32_trunc None None [1; 2; 3; 4] 3 = (WDone, [1; 2; 3]) /\
  win32_trunc None (Some 5) [1; 2; 3; 4] 3 = (WFailed 5, [1; 2; 3; 4]).
Proof. vm_compute. auto. Qed.

Print Assumptions C45_read.
Print Assumptions C45_write.
Print Assumptions C45_read_is_model.
Print Assumptions C45_write_is_model.
Print Assumptions C45_trunc_is_model.
