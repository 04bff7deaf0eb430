(** A program that only looks at the files, running while another one works on
    them: visit() (include/nudb/impl/visit.ipp) in one thread or process, the
    background flush of a store (basic_store.ipp:757-804) in another. *)
From Verif Require Import Model.Bytes Model.Err Model.IO.

(** [beside torn p q w a]: [p], started with the files [w] while [q] has yet to be
    executed, may end with [a].  The operations of the two happen in any order.
    With [torn] a write of [q] may be seen when only a part of it has reached the
    file, in any number of pieces (posix_file::write, posix_file.ipp:144-167, calls
    pwrite repeatedly, and a pwrite may be seen in part).  Each side has its own file
    descriptor; contents belong to the file, so a name is enough as in IO.v.
    win32_file opens files without sharing (Win32.v): there the open of [p] fails. *)
Inductive beside (torn : bool) {A B} : prog A -> prog B -> world -> A -> Prop :=
| bs_end a q w : beside torn (Ret a) q w a
| bs_mine o k q w a :
    beside torn (k (snd (exec o w))) q (fst (exec o w)) a -> beside torn (Do o k) q w a
| bs_other p o k w a :
    beside torn p (k (snd (exec o w))) (fst (exec o w)) a -> beside torn p (Do o k) w a
| bs_part p f ap off d1 d2 k w a :
    torn = true -> 0 < blen d1 -> snd (exec (IoWrite f ap off d1) w) = ROk 0 [] ->
    beside torn p (Do (IoWrite f ap (off + blen d1) d2) k) (fst (exec (IoWrite f ap off d1) w)) a ->
    beside torn p (Do (IoWrite f ap off (d1 ++ d2)) k) w a.
