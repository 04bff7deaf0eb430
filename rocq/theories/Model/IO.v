(** File operations and programs over them. *)
From Verif Require Import Model.Bytes Model.Err.

(** The three files of a database (data, key and log path given to
    basic_store::open, include/nudb/basic_store.hpp). *)
Inductive fname := FDat | FKey | FLog.

(** Operations of the File concept (include/nudb/impl/posix_file.ipp).  The file
    is named instead of referred to by descriptor; at most one descriptor per
    path is used at a time by the modelled functions.  The open mode matters
    only for writes and is carried by the write ([append]).  close() has no
    effect on contents and is left out. *)
Inductive io :=
| IoOpen (f : fname)                       (* open,   posix_file.ipp:72-86 *)
| IoCreate (f : fname)                     (* create, posix_file.ipp:56-70 *)
| IoErase (f : fname)                      (* erase,  posix_file.ipp:88-98 *)
| IoSize (f : fname)                       (* size,   posix_file.ipp:100-112 *)
| IoRead (f : fname) (off len : N)         (* read,   posix_file.ipp:114-142 *)
| IoWrite (f : fname) (append : bool) (off : N) (d : bytes) (* write, 144-167 *)
| IoSync (f : fname)                       (* sync,   posix_file.ipp:169-183 *)
| IoTrunc (f : fname) (len : N).           (* trunc,  posix_file.ipp:185-199 *)

(** Answer of an operation: an error, or a number and some data (each operation
    uses what it needs). *)
Inductive rsp := RErr (e : err) | ROk (n : N) (d : bytes).

(** A program: finished, or an operation and what to do with its answer. *)
Inductive prog (A : Type) :=
| Ret (a : A)
| Do (o : io) (k : rsp -> prog A).
Arguments Ret {A} _.
Arguments Do {A} _ _.

Fixpoint bind {A B} (p : prog A) (f : A -> prog B) : prog B :=
  match p with
  | Ret a => f a
  | Do o k => Do o (fun r => bind (k r) f)
  end.

(** [p; if(ec) return; f] *)
Definition ebind {A B} (p : prog (res A)) (f : A -> prog (res B)) : prog (res B) :=
  bind p (fun r => match r with Ok a => f a | Er e => Ret (Er e) end).

Declare Scope prog_scope.
Delimit Scope prog_scope with prog.
Open Scope prog_scope.
Notation "x <- p ;; q" := (ebind p (fun x => q))
  (at level 61, p at next level, right associativity) : prog_scope.
Notation "' pat <- p ;; q" := (ebind p (fun x => match x with pat => q end))
  (at level 61, pat pattern, p at next level, right associativity) : prog_scope.
Notation "p ;;; q" := (ebind p (fun _ => q))
  (at level 61, right associativity) : prog_scope.

Definition pret {A} (a : A) : prog (res A) := Ret (Ok a).
Definition pfail {A} (e : err) : prog (res A) := Ret (Er e).
Definition plift {A} (r : res A) : prog (res A) := Ret r.

Definition do_unit (o : io) : prog (res unit) :=
  Do o (fun r => match r with RErr e => Ret (Er e) | ROk _ _ => Ret (Ok tt) end).
Definition do_num (o : io) : prog (res N) :=
  Do o (fun r => match r with RErr e => Ret (Er e) | ROk n _ => Ret (Ok n) end).
Definition do_data (o : io) : prog (res bytes) :=
  Do o (fun r => match r with RErr e => Ret (Er e) | ROk _ d => Ret (Ok d) end).

Definition p_open f := do_unit (IoOpen f).
Definition p_create f := do_unit (IoCreate f).
Definition p_erase f := do_unit (IoErase f).
Definition p_size f := do_num (IoSize f).
Definition p_read f off len := do_data (IoRead f off len).
Definition p_write f ap off d := do_unit (IoWrite f ap off d).
Definition p_sync f := do_unit (IoSync f).
Definition p_trunc f len := do_unit (IoTrunc f len).

(** Unbounded loops ([for(;;)], [while]): at most [p] iterations of [step], which
    either continues with a new loop state or leaves the loop.  [None] when the
    iterations are used up. *)
Fixpoint iterp {S R} (p : positive) (step : S -> prog (S + R)) (s : S) : prog (S + R) :=
  match p with
  | xH => step s
  | xO q => bind (iterp q step s) (fun r =>
              match r with inl s' => iterp q step s' | inr x => Ret (inr x) end)
  | xI q => bind (step s) (fun r =>
              match r with
              | inr x => Ret (inr x)
              | inl s0 =>
                bind (iterp q step s0) (fun r =>
                  match r with inl s' => iterp q step s' | inr x => Ret (inr x) end)
              end)
  end.

(** 2^64 iterations. *)
Definition fuel : positive := 18446744073709551616.

(** [while(true) step], the loop body reporting errors itself; exhausting the
    fuel is the error EDiverge. *)
Definition loop {S R} (step : S -> prog (S + res R)) (s : S) : prog (res R) :=
  bind (iterp fuel step s) (fun r =>
    match r with inl _ => Ret (Er EDiverge) | inr x => Ret x end).

(** Contents of the three paths; [None] when there is no such file. *)
Record world := World { w_dat : option bytes; w_key : option bytes; w_log : option bytes }.

Definition wget (w : world) (f : fname) : option bytes :=
  match f with FDat => w_dat w | FKey => w_key w | FLog => w_log w end.

Definition wset (w : world) (f : fname) (c : option bytes) : world :=
  match f with
  | FDat => World c (w_key w) (w_log w)
  | FKey => World (w_dat w) c (w_log w)
  | FLog => World (w_dat w) (w_key w) c
  end.

(** ftruncate: shorten, or extend with zeros. *)
Definition btrunc (n : N) (f : bytes) : bytes := btake n f ++ zeros (n - blen f).

(** Effect and answer of an operation that the system carries out completely.
    Reading beyond the end gives short_read (posix_file.ipp:131-135); a write
    through a descriptor opened for append (O_APPEND, posix_file.ipp:214-230)
    elsewhere than at the end of the file has OS-dependent effect and gives the
    distinct error EAppend.  Writes of zero bytes are never issued by the code
    modelled. *)
Definition exec (o : io) (w : world) : world * rsp :=
  match o with
  | IoOpen f =>
    match wget w f with Some _ => (w, ROk 0 []) | None => (w, RErr ENoEnt) end
  | IoCreate f =>
    match wget w f with
    | Some _ => (w, RErr EExist)
    | None => (wset w f (Some []), ROk 0 [])
    end
  | IoErase f =>
    match wget w f with
    | Some _ => (wset w f None, ROk 0 [])
    | None => (w, RErr ENoEnt)
    end
  | IoSize f =>
    match wget w f with Some c => (w, ROk (blen c) []) | None => (w, RErr EBadF) end
  | IoRead f off len =>
    match wget w f with
    | Some c => if (len =? 0) || (off + len <=? blen c) then (w, ROk 0 (bsub off len c))
                else (w, RErr short_read)
    | None => (w, RErr EBadF)
    end
  | IoWrite f ap off d =>
    match wget w f with
    | Some c => if ap && negb (off =? blen c) then (w, RErr EAppend)
                else (wset w f (Some (bwrite off d c)), ROk 0 [])
    | None => (w, RErr EBadF)
    end
  | IoSync f =>
    match wget w f with Some _ => (w, ROk 0 []) | None => (w, RErr EBadF) end
  | IoTrunc f len =>
    match wget w f with
    | Some c => (wset w f (Some (btrunc len c)), ROk 0 [])
    | None => (w, RErr EBadF)
    end
  end.

(** Running a program to completion without failures. *)
Fixpoint run {A} (p : prog A) (w : world) : world * A :=
  match p with
  | Ret a => (w, a)
  | Do o k => let '(w', r) := exec o w in run (k r) w'
  end.
