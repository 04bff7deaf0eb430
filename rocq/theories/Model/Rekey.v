(** Rebuilding the key file of a data file: include/nudb/impl/rekey.ipp. *)
From Verif Require Import Model.Bytes Model.Err Model.Field Model.Format Model.IO
  Model.BulkIO Model.Bucket Model.Recover Model.Create.

(** Arguments of rekey(), include/nudb/impl/rekey.ipp:28-38, and what it computes from
    them by floating-point arithmetic or at random: [ra_salt] is the result of
    make_salt() (line 81) and [ra_buckets] the value of
    [static_cast<size_t>(ceil(itemCount / (capacity * loadFactor)))] (lines 86-88),
    [None] when that conversion is undefined.  The theorems hold for every number of
    buckets, hence for every itemCount and every rounding. *)
Record rekey_args := RekeyArgs {
  ra_salt : N; ra_block_size : N; ra_load_factor : float; ra_buckets : option N;
  ra_buffer_size : N }.

(** [min<size_t>(static_cast<size_t>(65536.0f * loadFactor), 65535)]:
    include/nudb/impl/rekey.ipp:84-85.  The argument is not validated: converting a value
    outside of size_t is undefined ([None]). *)
Definition rekey_lf (f : float) : option N :=
  match f with
  | FNaN => None
  | FVal n d =>
    let x := Z.quot (65536 * n) (Z.pos d) in
    if (x <? 0)%Z || (18446744073709551615 <? x)%Z then None
    else Some (N.min (Z.to_N x) 65535)
  end.

(** The key file header: include/nudb/impl/rekey.ipp:76-89. *)
Definition rekey_key_header (e : env) (a : rekey_args) (dh : dat_header) (lf buckets : N) : key_header :=
  KeyHeader [] currentVersion (dh_uid dh) (dh_appnum dh) (dh_key_size dh) (ra_salt a)
    (pepper (e_hasher e) (ra_salt a)) (ra_block_size a) lf 0 buckets (ceil_pow2 buckets).

(** The log file header: include/nudb/impl/rekey.ipp:115-124. *)
Definition rekey_log_header (kh : key_header) (dataFileSize : N) : log_header :=
  LogHeader [] currentVersion (kh_uid kh) (kh_appnum kh) (kh_key_size kh) (kh_salt kh)
    (kh_pepper kh) (kh_block_size kh) 0 dataFileSize.

(** readSize and writeSize with nudb::block_size() = 4096:
    include/nudb/impl/rekey.ipp:47-48. *)
Definition rekey_read_size : N := 1024 * 4096.
Definition rekey_write_size : N := 16 * 4096.

(** The state of the inner loop: calls of progress so far (oldest first), the buckets
    being built, the writer and the reader of the data file. *)
Definition rekey_state := (list (N * N) * bytes * bwriter * breader)%type.

(** One record of the data file: include/nudb/impl/rekey.ipp:184-231.  [b0] and [bn] are
    the first bucket in the buffer and the number of buckets there, [work] is
    [(b0 / chunkSize) * dataFileSize] and [total] is nwork.  The BOOST_ASSERT in
    read_size48 is not modelled. *)
Definition rekey_step (e : env) (kh : key_header) (b0 bn work total : N) (st : rekey_state)
  : prog (rekey_state + res (list (N * N) * bytes * bwriter)) :=
  let '(t, buf, dw, r) := st in
  if br_eof r then Ret (inr (Ok (t, buf, dw)))
  else
  let offset := br_offset r in
  bind (br_prepare r 6) (fun a =>
  match a with
  | Er er => Ret (inr (Er er))
  | Ok (is, r) =>
    let t := t ++ [(work + br_offset r, total)] in
    let size := rd_size48 is in
    if 0 <? size then
      bind (br_prepare r (kh_key_size kh + size)) (fun a =>
      match a with
      | Er er => Ret (inr (Er er))
      | Ok (is, r) =>
        let h := hash (e_hasher e) (kh_salt kh) (btake (kh_key_size kh) is) in
        let n := bucket_index h (kh_buckets kh) (kh_modulus kh) in
        if (n <? b0) || (b0 + bn <=? n) then Ret (inl (t, buf, dw, r))
        else
          let at_ := (n - b0) * kh_block_size kh in
          bind ('(b, dw) <- maybe_spill (bk_of_blob (bsub at_ (kh_block_size kh) buf)) dw ;;
                b <- plift (bk_insert b offset size h) ;;
                pret (b, dw)) (fun a =>
          match a with
          | Er er => Ret (inr (Er er))
          | Ok (b, dw) => Ret (inl (t, bwrite at_ (bk_blob b) buf, dw, r))
          end)
      end)
    else
      bind (br_prepare r 2) (fun a =>
      match a with
      | Er er => Ret (inr (Er er))
      | Ok (is, r) =>
        bind (br_prepare r (rd16 is)) (fun a =>
        match a with
        | Er er => Ret (inr (Er er))
        | Ok (_, r) => Ret (inl (t, buf, dw, r))
        end)
      end)
  end).

(** One pass over the data file: include/nudb/impl/rekey.ipp:171-236.  The buffer is
    cleared bucket by bucket (lines 177-179). *)
Definition rekey_pass (e : env) (kh : key_header) (dataFileSize chunk total : N)
    (st : N * list (N * N) * bwriter)
  : prog ((N * list (N * N) * bwriter) + res (list (N * N) * bwriter)) :=
  let '(b0, t, dw) := st in
  if kh_buckets kh <=? b0 then Ret (inr (Ok (t, dw)))
  else
  let bn := N.min (b0 + chunk) (kh_buckets kh) - b0 in
  let buf := zeros (bn * kh_block_size kh) in
  let r := br_make FDat dat_hdr_size dataFileSize rekey_read_size in
  bind (loop (rekey_step e kh b0 bn (b0 / chunk * dataFileSize) total) (t, buf, dw, r)) (fun a =>
  match a with
  | Er er => Ret (inr (Er er))
  | Ok (t, buf, dw) =>
    bind (p_write FKey false ((b0 + 1) * kh_block_size kh) buf) (fun a =>
    match a with
    | Er er => Ret (inr (Er er))
    | Ok _ => Ret (inl (b0 + chunk, t, dw))
    end)
  end).

(** chunkSize: include/nudb/impl/rekey.ipp:161-162. *)
Definition rekey_chunk (a : rekey_args) : N := N.max 1 (ra_buffer_size a / ra_block_size a).

(** nwork: include/nudb/impl/rekey.ipp:164-166 (unsigned arithmetic). *)
Definition rekey_work (a : rekey_args) (buckets dataFileSize : N) : N :=
  let passes := (buckets + rekey_chunk a - 1) mod 18446744073709551616 / rekey_chunk a in
  passes * dataFileSize mod 18446744073709551616.

(** Opening the files: include/nudb/impl/rekey.ipp:50-73. *)
Definition rekey_start : prog (res (dat_header * N)) :=
  p_open FDat ;;;
  dh <- read_dat_header ;;
  plift (verify_dat dh) ;;;
  dataFileSize <- p_size FDat ;;
  bind (p_open FLog) (fun a =>
  match a with
  | Ok _ => pfail log_file_exists
  | Er ENoEnt => pret (dh, dataFileSize)
  | Er er => pfail er
  end).

(** Creating key and log file: include/nudb/impl/rekey.ipp:90-156.  The key file is given
    its full size by writing its last byte. *)
Definition rekey_create (kh : key_header) (dataFileSize : N) : prog (res unit) :=
  p_create FKey ;;;
  p_write FKey false 0 (enc_key_header kh) ;;;
  p_sync FKey ;;;
  p_create FLog ;;;
  p_write FLog true 0 (enc_log_header (rekey_log_header kh dataFileSize)) ;;;
  p_sync FLog ;;;
  p_write FKey false 0 (enc_key_header_block kh) ;;;
  p_sync FKey ;;;
  p_write FKey false
    (((kh_buckets kh + 1) mod 18446744073709551616 * kh_block_size kh + 18446744073709551615)
       mod 18446744073709551616) [0] ;;;
  p_sync FKey.

(** Building the buckets: include/nudb/impl/rekey.ipp:158-243.  Allocating the buffer
    (line 169) is not modelled: it may throw std::bad_alloc. *)
Definition rekey_build (e : env) (a : rekey_args) (kh : key_header) (dataFileSize : N)
  : prog (res (list (N * N))) :=
  let total := rekey_work a (kh_buckets kh) dataFileSize in
  let dw := bw_make FDat true dataFileSize rekey_write_size in
  '(t, dw) <- loop (rekey_pass e kh dataFileSize (rekey_chunk a) total) (0, [(0, total)], dw) ;;
  bw_flush dw ;;;
  p_erase FLog ;;;
  pret t.

(** rekey(): include/nudb/impl/rekey.ipp:20-244.  The result of a successful call are the
    calls of progress, oldest first; those of a call that fails are left out.  A block too
    small for one entry makes the division of lines 86-88 a division by zero, whose result
    cannot be converted to size_t. *)
Definition rekey (e : env) (a : rekey_args) : prog (res (list (N * N))) :=
  '(dh, dataFileSize) <- rekey_start ;;
  match rekey_lf (ra_load_factor a), ra_buckets a with
  | Some lf, Some buckets =>
    if bucket_capacity (ra_block_size a) =? 0 then pfail EUB
    else
      let kh := rekey_key_header e a dh lf buckets in
      rekey_create kh dataFileSize ;;;
      rekey_build e a kh dataFileSize
  | _, _ => pfail EUB
  end.
