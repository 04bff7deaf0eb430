(** Visiting the contents of a data file: include/nudb/impl/visit.ipp. *)
From Verif Require Import Model.Bytes Model.Err Model.Field Model.Format Model.IO
  Model.BulkIO Model.Bucket Model.Recover.

(** Calls visit() makes to user code: callback(key, key_size, data, size, ec) and
    progress(amount, total). *)
Inductive vcall := VItem (k v : bytes) | VProgress (amount total : N).

(** The user's callback: the error it sets, if any, on being called with a key and
    a value after the calls made so far (oldest first); it may depend on all of
    them, like a callback with state. *)
Definition callback := list vcall -> bytes -> bytes -> option err.

(** readSize: include/nudb/impl/visit.ipp:36 with nudb::block_size() = 4096. *)
Definition visit_read_size : N := 1024 * 4096.

(** One iteration of the loop: include/nudb/impl/visit.ipp:53-89.  The calls made so
    far are part of the loop state.  After the prepare of a data record ec is not
    tested: the stream returned with an error is empty and is.data() throws
    std::logic_error (detail/stream.hpp:55-66); key_size is at least 1 there.  The
    BOOST_ASSERT in read_size48 is not modelled (the value is truncated to 32 bits, as in
    a release build). *)
Definition visit_step (cb : callback) (ks fileSize : N) (st : list vcall * breader)
  : prog ((list vcall * breader) + res (list vcall * res unit)) :=
  let '(t, r) := st in
  let done := Ret (inr (Ok (t, Ok tt))) in
  let stop (er : err) := Ret (inr (Ok (t, Er er))) in
  let next (t : list vcall) (r : breader) :=
    Ret (inl (t ++ [VProgress (br_offset r) fileSize], r)) in
  if br_eof r then done
  else
  bind (br_prepare r 6) (fun a =>
  match a with
  | Er er => stop er
  | Ok (is, r) =>
    let size := rd_size48 is in
    if 0 <? size then
      bind (br_prepare r (ks + size)) (fun a =>
      match a with
      | Er _ => stop EThrow
      | Ok (is, r) =>
        let k := btake ks is in
        let v := bdrop ks is in
        let t' := t ++ [VItem k v] in
        match cb t k v with
        | Some er => Ret (inr (Ok (t', Er er)))
        | None => next t' r
        end
      end)
    else
      bind (br_prepare r 2) (fun a =>
      match a with
      | Er er => stop er
      | Ok (is, r) =>
        bind (br_prepare r (rd16 is)) (fun a =>
        match a with
        | Er er => stop er
        | Ok (_, r) => next t r
        end)
      end)
  end).

(** visit(): include/nudb/impl/visit.ipp:22-90; the calls made, oldest first, and
    the error code. *)
Definition visit (cb : callback) : prog (res (list vcall * res unit)) :=
  bind (
    p_open FDat ;;;
    dh <- read_dat_header ;;
    plift (verify_dat dh) ;;;
    fileSize <- p_size FDat ;;
    pret (dh_key_size dh, fileSize)) (fun a =>
  match a with
  | Er er => pret ([], Er er)
  | Ok (ks, fileSize) =>
    let r := br_make FDat dat_hdr_size fileSize visit_read_size in
    loop (visit_step cb ks fileSize) ([VProgress 0 fileSize], r)
  end).
