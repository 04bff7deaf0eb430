(** The simulated failures of the test support:
    include/nudb/_experimental/test/fail_file.hpp. *)
From Verif Require Import Model.Bytes Model.Err Model.IO.

(** test_error::failure: include/nudb/_experimental/test/fail_file.hpp:23-31 and do_fail, 233-237; an
    error of another category, represented as a system error. *)
Definition test_failure : err := EIO 1000.

(** fail_counter::fail(): include/nudb/_experimental/test/fail_file.hpp:135-140; the target, the count before and
    after, and whether to fail.  That the count is a size_t, which returns to 0 after 2^64 calls, is left out;
    so is its being atomic: one thread is modelled. *)
Definition counter_fail (target count : N) : N * bool :=
  if target =? 0 then (count, false) else (count + 1, target <=? count + 1).

(** The operations of fail_file: include/nudb/_experimental/test/fail_file.hpp:184-213 (size, create, open and erase
    are passed on), 267-327 (read, write, sync and trunc).  sync() does nothing but count (lines 304-314); here it
    answers as the file would, which is the same for an open file.  The wrapper without a counter (c_ == nullptr,
    lines 329-337) is the one with target 0. *)
Definition fexec (target count : N) (o : io) (w : world) : world * rsp * N :=
  match o with
  | IoOpen _ | IoCreate _ | IoErase _ | IoSize _ => (exec o w, count)
  | IoRead _ _ _ | IoSync _ | IoTrunc _ _ =>
    let '(count, f) := counter_fail target count in
    if f then (w, RErr test_failure, count) else (exec o w, count)
  | IoWrite f ap off d =>
    let '(count, b) := counter_fail target count in
    if b then (w, RErr test_failure, count)
    else
      let '(count, b) := counter_fail target count in
      if b then
        match exec (IoWrite f ap off (btake ((blen d + 1) / 2) d)) w with
        | (w1, RErr er) => (w1, RErr er, count)
        | (w1, ROk _ _) => (w1, RErr test_failure, count)
        end
      else (exec o w, count)
  end.

(** A function of the library with File = fail_file, all file objects sharing one fail_counter
    (include/nudb/_experimental/test/fail_file.hpp:111-141). *)
Fixpoint frun {A} (target count : N) (p : prog A) (w : world) : world * A * N :=
  match p with
  | Ret a => (w, a, count)
  | Do o k =>
    let '(w1, r, count) := fexec target count o w in
    frun target count (k r) w1
  end.
