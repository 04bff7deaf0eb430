(** File objects and the descriptors or handles they own: construction, destruction, moving,
    open, create, close and erase of posix_file and win32_file:
    include/nudb/impl/posix_file.ipp:16-98 and include/nudb/impl/win32_file.ipp:14-100. *)
From Verif Require Import Model.Bytes.

(** The descriptors the operating system holds open for the process; errno (GetLastError());
    the file objects, with fd_ (hf_), [None] for -1 (INVALID_HANDLE_VALUE); descriptors that have
    been closed without being open. *)
Record hst := Hst { hs_open : list N; hs_errno : N; hs_obj : N -> option (option N); hs_bad : list N }.

(** What the system answers to open() or CreateFileA(): an error number, which is then in
    errno, or a descriptor; and what posix_fadvise() returns: 0 or an error number, which is
    not put into errno. *)
Inductive osys := OFails (ev : N) | OGets (fd : N) (adv : N).

(** [POpen] is open() or create(), which differ only in what they ask of the system. *)
Inductive hop :=
  PNew (i : N) | PDestroy (i : N) | PMoveNew (i j : N) | PMove (i j : N) | PClose (i : N) | POpen (i : N) (r : osys).

(** The state and the error code that is reported (0 for none), or a failed assertion. *)
Inductive hres := HOk (s : hst) (ec : N) | HAssert.

Definition hput (f : N -> option (option N)) (i : N) (o : option (option N)) : N -> option (option N) :=
  fun u => if u =? i then o else f u.
Definition set_obj (s : hst) (i : N) (o : option (option N)) : hst :=
  Hst (hs_open s) (hs_errno s) (hput (hs_obj s) i o) (hs_bad s).

(** The system call close() (CloseHandle()).  Its result is ignored by the code; the
    descriptor is taken to be closed in any case. *)
Definition kclose (s : hst) (fd : N) : hst :=
  if existsb (N.eqb fd) (hs_open s)
  then Hst (filter (fun x => negb (x =? fd)) (hs_open s)) (hs_errno s) (hs_obj s) (hs_bad s)
  else Hst (hs_open s) (hs_errno s) (hs_obj s) (fd :: hs_bad s).

(** posix_file::close(), include/nudb/impl/posix_file.ipp:47-54; win32_file.ipp:43-52.
    [fd] is the object's fd_. *)
Definition hclose (s : hst) (i : N) (fd : option N) : hst :=
  match fd with Some n => set_obj (kclose s n) i (Some None) | None => s end.

(** open() and create(): posix_file.ipp:59-86; win32_file.ipp:57-90.  [px] for posix_file,
    which calls posix_fadvise() afterwards.  last_err() puts errno into the error code,
    include/nudb/posix_file.hpp:205-215.  [None]: the system never answers with a
    descriptor that is open. *)
Definition hopen (px : bool) (s : hst) (i : N) (r : osys) : option hres :=
  match r with
  | OFails ev => Some (HOk (set_obj (Hst (hs_open s) ev (hs_obj s) (hs_bad s)) i (Some None)) ev)
  | OGets fd adv =>
    if existsb (N.eqb fd) (hs_open s) then None
    else Some (HOk (set_obj (Hst (fd :: hs_open s) (hs_errno s) (hs_obj s) (hs_bad s)) i (Some (Some fd)))
                (if px && negb (adv =? 0) then hs_errno s else 0))
  end.

(** One operation; [None] when it makes no sense.  Destructor: posix_file.ipp:18-21; move
    constructor: 25-29; move assignment: 34-42. *)
Definition hdo (px : bool) (o : hop) (s : hst) : option hres :=
  match o with
  | PNew i => match hs_obj s i with None => Some (HOk (set_obj s i (Some None)) 0) | Some _ => None end
  | PDestroy i =>
    match hs_obj s i with Some fd => Some (HOk (set_obj (hclose s i fd) i None) 0) | None => None end
  | PClose i => match hs_obj s i with Some fd => Some (HOk (hclose s i fd) 0) | None => None end
  | PMoveNew i j =>
    match hs_obj s i, hs_obj s j with
    | None, Some fd => Some (HOk (set_obj (set_obj s i (Some fd)) j (Some None)) 0)
    | _, _ => None
    end
  | PMove i j =>
    match hs_obj s i, hs_obj s j with
    | Some d, Some fd =>
      if i =? j then Some (HOk s 0)
      else Some (HOk (set_obj (set_obj (hclose s i d) i (Some fd)) j (Some None)) 0)
    | _, _ => None
    end
  | POpen i r =>
    match hs_obj s i with
    | Some None => hopen px s i r
    | Some (Some _) => Some HAssert
    | None => None
    end
  end.

Fixpoint hdos (px : bool) (l : list hop) (s : hst) : option hres :=
  match l with
  | [] => Some (HOk s 0)
  | o :: l' => match hdo px o s with Some (HOk s' _) => hdos px l' s' | r => r end
  end.
(** A program that starts without file objects. *)
Definition handles (px : bool) (l : list hop) : option hres := hdos px l (Hst [] 0 (fun _ => None) []).

(** erase(): posix_file.ipp:91-98, win32_file.ipp:94-100; the error reported, where [ex] tells
    whether there is a file of this name, and [r] what the system answers if there is. *)
Definition ENOENT : N := 2.
Definition herase (ex : bool) (r : option N) : N :=
  if ex then match r with Some ev => ev | None => 0 end else ENOENT.
