(** The public functions as functions of the value that the caller's error_code holds
    before the call.  The functions of File set it when they fail and leave it alone
    otherwise (include/nudb/impl/posix_file.ipp:59-199, win32_file.ipp:57-216;
    posix_file.hpp:205-225), and none of the functions below clears it first. *)
From Verif Require Import Model.Bytes Model.Err Model.Field Model.Format Model.IO Model.BulkIO
  Model.Bucket Model.Pool Model.Recover Model.Create Model.Store Model.Visit Model.Verify Model.Rekey.

(** A function called while ec holds the error [er].  Its first file operation is followed
    by a test of ec, which is set whether or not the operation succeeds, and by a return;
    [pure] tells what happens when it returns without a file operation.  These tests are at:
    recover.ipp:44-46; basic_store.ipp:134-137 (open), 260-262 (fetch of a bucket of the key
    file), 384-388 and 403-405 (of one in memory), 320-323, 435-439 and 449-451 (insert);
    create.ipp:95-97, where nothing is erased because edf is still false; rekey.ipp:52-54;
    visit.ipp:40-42; verify.ipp:555-557. *)
Definition one_operation {A B} (er : err) (p : prog A) (pure : A -> B) (stop : err -> B) : prog B :=
  match p with
  | Ret a => Ret (pure a)
  | Do o _ => Do o (fun r => Ret (stop (match r with RErr er' => er' | ROk _ _ => er end)))
  end.

(** A function that reports [r] when called with a clear ec; the result is the value of ec
    after the call and what the function delivers. *)
Definition outcome {A} (r : res A) : option err * option A :=
  match r with Ok a => (None, Some a) | Er er => (Some er, None) end.
Definition with_ec {A} (ec : option err) (p : prog (res A)) : prog (option err * option A) :=
  match ec with
  | None => bind p (fun r => Ret (outcome r))
  | Some er =>
    one_operation er p
      (fun r => match r with Ok a => (Some er, Some a) | Er er' => (Some er', None) end)
      (fun er' => (Some er', None))
  end.

(** recover(), create(), rekey(), verify() and open(). *)
Definition recover_ec (e : env) (ec : option err) := with_ec ec (recover e).
Definition create_ec (e : env) (a : create_args) (ec : option err) := with_ec ec (create e a).
Definition rekey_ec (e : env) (a : rekey_args) (ec : option err) := with_ec ec (rekey e a).
Definition verify_ec (e : env) (buffer_size : N) (ec : option err) := with_ec ec (verify e buffer_size).
Definition open_ec (e : env) (ec : option err) := with_ec ec (store_open e).

(** fetch(): include/nudb/impl/basic_store.ipp:220-264.  A value found in a pool is given to
    the callback without a test of ec (lines 240-250). *)
Definition fetch_ec (e : env) (s : store) (key : bytes) (ec : option err) := with_ec ec (store_fetch e s key).

(** insert(): include/nudb/impl/basic_store.ipp:266-354.  ec is tested after exists() also
    when that has made no file operation (lines 303-304, 324-325). *)
Definition insert_ec (e : env) (s : store) (key data : bytes) (ec : option err) : prog (option err * option store) :=
  match ec with
  | None => bind (store_insert e s key data) (fun r => Ret (outcome r))
  | Some er =>
    one_operation er (store_insert e s key data)
      (fun r => match r with Ok _ => (Some er, None) | Er er' => (Some er', None) end)
      (fun er' => (Some er', None))
  end.

(** close(): include/nudb/impl/basic_store.ipp:190-218.  It works with the member ec_ and
    assigns to ec only to report an error. *)
Definition close_ec (e : env) (s : store) (ec : option err) : prog (option err) :=
  bind (store_close e s) (fun r => Ret (match r with Ok _ => ec | Er er => Some er end)).

(** visit(): include/nudb/impl/visit.ipp:26-95. *)
Definition visit_ec (cb : callback) (ec : option err) : prog (option err * list vcall) :=
  let report (a : list vcall * res unit) := (match snd a with Ok _ => None | Er er => Some er end, fst a) in
  match ec with
  | None => bind (visit cb) (fun r => Ret (match r with Ok a => report a | Er er => (Some er, []) end))
  | Some er =>
    one_operation er (visit cb)
      (fun r => match r with Ok a => report a | Er er' => (Some er', []) end)
      (fun er' => (Some er', []))
  end.
