(** Recovery: include/nudb/impl/recover.ipp. *)
From Verif Require Import Model.Bytes Model.Err Model.Field Model.Format Model.IO
  Model.BulkIO Model.Bucket.

(** read(File, dat_file_header): include/nudb/detail/format.hpp:280-290. *)
Definition read_dat_header : prog (res dat_header) :=
  b <- p_read FDat 0 dat_hdr_size ;;
  pret (dec_dat_header b).

(** read(File, key_file_header): include/nudb/detail/format.hpp:355-368. *)
Definition read_key_header : prog (res key_header) :=
  b <- p_read FKey 0 key_hdr_size ;;
  size <- p_size FKey ;;
  pret (dec_key_header b size).

(** read(File, log_file_header): include/nudb/detail/format.hpp:426-436. *)
Definition read_log_header : prog (res log_header) :=
  b <- p_read FLog 0 log_hdr_size ;;
  pret (dec_log_header b).

(** erase_file(path, ec): include/nudb/native_file.hpp:44-52. *)
Definition erase_file (f : fname) : prog (res unit) :=
  bind (p_erase f) (fun r =>
    match r with
    | Er ENoEnt => Ret (Ok tt)
    | r => Ret r
    end).

(** One iteration of the replay loop: include/nudb/impl/recover.ipp:130-169.
    Leaving the loop with Ok means break or eof.  An error of b.read other than
    short_read is not tested before b is used and written (recover.ipp:150-168):
    the write happens with the bucket as left by the failed read and the read
    error is reported afterwards. *)
Definition recover_step (kh : key_header) (dataFileSize : N) (st : bucket * breader)
  : prog ((bucket * breader) + res unit) :=
  let '(b, r) := st in
  if br_eof r then Ret (inr (Ok tt))
  else
  bind (br_prepare r 8) (fun a =>
  match a with
  | Er short_read => Ret (inr (Ok tt))
  | Er e => Ret (inr (Er e))
  | Ok (is, r) =>
    let n := rd64 is in
    bind (bk_read_bulk b r) (fun a =>
    let '(b, a) := a in
    match a with
    | Er short_read => Ret (inr (Ok tt))
    | Er EUB => Ret (inr (Er EUB))
    | _ =>
      if negb (bk_spill b =? 0) && (dataFileSize <? bk_spill b + bucket_size (kh_capacity kh))
      then Ret (inr (Er invalid_log_spill))
      else if kh_buckets kh <? n then Ret (inr (Er invalid_log_index))
      else
        bind (bk_write b FKey false ((n + 1) * kh_block_size kh)) (fun w =>
        match a, w with
        | Er e, _ => Ret (inr (Er e))
        | Ok r, Ok _ => Ret (inl (b, r))
        | Ok _, Er e => Ret (inr (Er e))
        end)
    end)
  end).

(** The clear_log part: include/nudb/impl/recover.ipp:194-204. *)
Definition recover_clear_log : prog (res unit) :=
  p_trunc FLog 0 ;;;
  p_sync FLog ;;;
  p_erase FLog.

(** The trunc_files part: include/nudb/impl/recover.ipp:171-193. *)
Definition recover_trunc_files (lh : log_header) : prog (res unit) :=
  p_trunc FDat (lh_dat_file_size lh) ;;;
  p_sync FDat ;;;
  (if negb (lh_key_file_size lh =? 0) then
     p_trunc FKey (lh_key_file_size lh) ;;;
     p_sync FKey
   else p_erase FKey).

(** Replaying the log into the key file: include/nudb/impl/recover.ipp:108-170.
    [dh] is the data file header, [lh] the log header. *)
Definition recover_replay (e : env) (dh : dat_header) (lh : log_header)
    (dataFileSize logFileSize : N) : prog (res unit) :=
  kh <- read_key_header ;;
  plift (verify_key (e_hasher e) kh) ;;;
  plift (verify_dat_key (e_hasher e) dh kh) ;;;
  plift (verify_key_log (e_hasher e) kh lh) ;;;
  let readSize := 1024 * kh_block_size kh in
  let b := bk_of_blob (fresh e (kh_block_size kh)) in
  let r := br_make FLog log_hdr_size logFileSize readSize in
  loop (recover_step kh dataFileSize) (b, r).

(** recover(): include/nudb/impl/recover.ipp:24-205. *)
Definition recover (e : env) : prog (res unit) :=
  p_open FDat ;;;
  dataFileSize <- p_size FDat ;;
  dh <- read_dat_header ;;
  plift (verify_dat dh) ;;;
  p_open FKey ;;;
  keyFileSize <- p_size FKey ;;
  if keyFileSize <=? key_hdr_size then
    erase_file FLog ;;;
    p_erase FKey ;;;
    pfail no_key_file
  else
  bind (p_open FLog) (fun a =>
  match a with
  | Er ENoEnt => pret tt
  | Er er => pfail er
  | Ok _ =>
    logFileSize <- p_size FLog ;;
    bind read_log_header (fun a =>
    match a with
    | Er short_read => recover_clear_log
    | Er er => pfail er
    | Ok lh =>
      plift (verify_log (e_hasher e) lh) ;;;
      (if lh_key_file_size lh =? 0 then pret tt
       else recover_replay e dh lh dataFileSize logFileSize) ;;;
      recover_trunc_files lh ;;;
      recover_clear_log
    end)
  end).
