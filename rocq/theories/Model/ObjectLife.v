(** The file objects of a store during open(), close() and destruction:
    include/nudb/impl/basic_store.ipp:27-60, 118-218, and include/nudb/impl/recover.ipp:28-96.

    What the files contain is left out.  A file object (its descriptor or handle: Model/Handles.v)
    is a pair of the variable it belongs to and the file it has open; objects that have
    nothing open are left out.  The process has one store. *)
From Verif Require Import Model.Bytes Model.IO.

(** Where file objects are: the variables df, kf and lf of recover() and of open(); the local
    variable s of open(); the member s_; the local variable s of close(). *)
Inductive owner := VRecover | VOpen | VNew | VMember | VClose.
Definition owner_eqb (a b : owner) : bool :=
  match a, b with
  | VRecover, VRecover | VOpen, VOpen | VNew, VNew | VMember, VMember | VClose, VClose => true
  | _, _ => false
  end.
Definition same_file (f g : fname) : bool :=
  match f, g with FDat, FDat | FKey, FKey | FLog, FLog => true | _, _ => false end.
Definition held := list (owner * fname).

(** open_, whether s_ holds a state (basic_store.hpp:97-101), and the open files. *)
Record sobj := Sobj { o_open : bool; o_some : bool; o_held : held }.
(** basic_store.hpp:130-142. *)
Definition so_new : sobj := Sobj false false [].

(** What the system answers when a file is opened or created: it fails; it does not exist; it is
    opened; it is opened but posix_fadvise() fails, and an error is reported
    (posix_file.ipp:59-86). *)
Inductive answer := AFails | AMissing | AOpens | AReports.
Inductive oerr := ONone | OMissing | OOther.

(** File::open() and create().  posix_file ([px]): posix_file.ipp:59-86.  win32_file:
    win32_file.ipp:57-90; the share mode is 0, so the system refuses a file that the process
    has open already. *)
Definition fopen (px : bool) (v : owner) (f : fname) (a : answer) (h : held) : held * oerr :=
  if negb px && existsb (fun x => same_file (snd x) f) h then (h, OOther)
  else match a with
       | AFails => (h, OOther)
       | AMissing => (h, OMissing)
       | AOpens => ((v, f) :: h, ONone)
       | AReports => ((v, f) :: h, if px then OOther else ONone)
       end.
(** The variables go out of scope; objects are moved. *)
Definition drop (v : owner) (h : held) : held := filter (fun x => negb (owner_eqb (fst x) v)) h.
Definition move (v v' : owner) (h : held) : held :=
  map (fun x => if owner_eqb (fst x) v then (v', snd x) else x) h.

(** What happens to three files that are opened one after the other: the answers, and whether
    something fails after each has been opened and before the next is. *)
Record tries := Tries { t_dat : answer; t_dat_then : bool; t_key : answer; t_key_then : bool; t_log : answer; t_log_then : bool }.

(** recover(): recover.ipp:42-96 and the rest of the function.  A missing log is no error.  Files
    that are closed early (lines 66 and others) are closed at the end here. *)
Definition recover_files (px : bool) (t : tries) (h : held) : held * bool :=
  let '(h1, e1) := fopen px VRecover FDat (t_dat t) h in
  match e1, t_dat_then t with
  | ONone, false =>
    let '(h2, e2) := fopen px VRecover FKey (t_key t) h1 in
    match e2, t_key_then t with
    | ONone, false =>
      let '(h3, e3) := fopen px VRecover FLog (t_log t) h2 in
      (drop VRecover h3, match e3 with ONone => negb (t_log_then t) | OMissing => true | OOther => false end)
    | _, _ => (drop VRecover h2, false)
    end
  | _, _ => (drop VRecover h1, false)
  end.

(** The environment of a call of open(): for recover(), for open() itself, and whether the check
    in lines 178-182 fails. *)
Record otries := OTries { ot_recover : tries; ot_open : tries; ot_short : bool }.

(** basic_store::open(), basic_store.ipp:118-188; the result tells whether it succeeded.  [None]:
    the assertion in line 131 fails.  s_.emplace() destroys the old state of s_ and moves s
    there (line 185). *)
Definition so_do_open (px : bool) (t : otries) (o : sobj) : option (sobj * bool) :=
  if o_open o then None
  else
    let '(h, ok) := recover_files px (ot_recover t) (o_held o) in
    let back h' := Some (Sobj false (o_some o) h', false) in
    if negb ok then back h
    else
      let '(h1, e1) := fopen px VOpen FDat (t_dat (ot_open t)) h in
      match e1, t_dat_then (ot_open t) with
      | ONone, false =>
        let '(h2, e2) := fopen px VOpen FKey (t_key (ot_open t)) h1 in
        match e2, t_key_then (ot_open t) with
        | ONone, false =>
          let '(h3, e3) := fopen px VOpen FLog (t_log (ot_open t)) h2 in
          match e3, t_log_then (ot_open t) with
          | ONone, false =>
            let h4 := move VOpen VNew h3 in
            if ot_short t then back (drop VOpen (drop VNew h4))
            else Some (Sobj true true (drop VOpen (drop VNew (move VNew VMember (drop VMember h4)))), true)
          | _, _ => back (drop VOpen h3)
          end
        | _, _ => back (drop VOpen h2)
        end
      | _, _ => back (drop VOpen h1)
      end.

(** basic_store::close(), basic_store.ipp:190-218; [bad]: an error is left from a flush, or the
    commit in line 203 fails (line 207); [erased]: File::erase() in line 214 succeeds, if the log
    is not open (DeleteFileA() fails on an open file; unlink() does not, but the log is never
    open here).  The
    result tells whether no error is reported.  The state in s_ is moved from but stays
    (line 213). *)
Definition so_do_close (bad erased : bool) (o : sobj) : sobj * bool :=
  if o_open o then
    if bad then (Sobj false (o_some o) (o_held o), false)
    else
      let h1 := filter (fun x => negb (owner_eqb (fst x) VMember && same_file (snd x) FLog)) (o_held o) in
      (Sobj false (o_some o) (drop VClose (move VMember VClose h1)),
       erased && negb (existsb (fun x => same_file (snd x) FLog) (move VMember VClose h1)))
  else (o, true).

(** ~basic_store(), basic_store.ipp:52-61: close(), then the members are destroyed.  What is still
    open afterwards. *)
Definition so_destroy (bad erased : bool) (o : sobj) : held := drop VMember (o_held (fst (so_do_close bad erased o))).

(** Calls of open() and close() in any order. *)
Inductive ocall := COpen (t : otries) | CClose (bad erased : bool).
Fixpoint so_calls (px : bool) (l : list ocall) (o : sobj) : option sobj :=
  match l with
  | [] => Some o
  | COpen t :: l' => match so_do_open px t o with Some (o', _) => so_calls px l' o' | None => None end
  | CClose b e :: l' => so_calls px l' (fst (so_do_close b e o))
  end.
