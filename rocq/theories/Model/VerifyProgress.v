(** The calls of the progress object made by verify(): include/nudb/impl/verify.ipp.

    The functions of Model/Verify.v with the work they count and the calls
    progress(amount, total) they make, oldest first, also those of a call that fails.
    Model/Verify.v's search for the entry of a record ([vfind]), its counting of keys
    ([vf_count]) and its walk along a chain ([vn_chain_step]) are used as they are: they
    call no progress, and what they add to the work is told below.  Amounts and totals
    are 64-bit; the work counted is unbounded and cut to 64 bits where it is reported. *)
From Verif Require Import Model.Bytes Model.Err Model.Field Model.Format Model.IO
  Model.BulkIO Model.Bucket Model.Recover Model.Verify.

(** Calls progress(amount, total). *)
Definition vtrace := list (N * N).

Definition call (amount total : N) (t : vtrace) : vtrace := t ++ [(amount mod 2 ^ 64, total mod 2 ^ 64)].

(** One record of the data file in verify_normal: include/nudb/impl/verify.ipp:78-180.
    The state has the work counted and the calls made before. *)
Definition vnp_record (e : env) (kh : key_header) (nwork : N) (st : vinfo * breader * N * vtrace)
  : prog ((vinfo * breader * N * vtrace) + res (vtrace * res (vinfo * N))) :=
  let '(v, r, work, t) := st in
  let stop (er : err) := Ret (inr (Ok (t, Er er))) in
  let bs := kh_block_size kh in
  if br_eof r then Ret (inr (Ok (t, Ok (v, work))))
  else
  let offset := br_offset r in
  bind (br_prepare r 6) (fun a =>
  match a with
  | Er er => stop er
  | Ok (is, r) =>
    let size := rd_size48 is in
    if 0 <? size then
      bind (br_prepare r (kh_key_size kh + size)) (fun a =>
      match a with
      | Er er => stop er
      | Ok (is, r) =>
        let h := hash (e_hasher e) (kh_salt kh) (btake (kh_key_size kh) is) in
        let n := bucket_index h (kh_buckets kh) (kh_modulus kh) in
        bind (bk_read (fresh e bs) FKey ((n + 1) * bs)) (fun a =>
        match a with
        | Er er => stop er
        | Ok b =>
          let work := work + bs in
          bind (vfind e bs h offset b) (fun a =>
          match a with
          | Er er => stop er
          | Ok _ => Ret (inl (vi_value size v, r, work, call (work + offset) nwork t))
          end)
        end)
      end)
    else
      bind (br_prepare r 2) (fun a =>
      match a with
      | Er short_read => stop short_spill
      | Er er => stop er
      | Ok (is, r) =>
        let size := rd16 is in
        if negb (size =? bucket_size (kh_capacity kh)) then stop invalid_spill_size
        else
          bind (bk_read_bulk (bk_of_blob (fresh e bs)) r) (fun a =>
          match a with
          | (_, Er short_read) => stop short_spill
          | (_, Er er) => stop er
          | (b, Ok r) => Ret (inl (vi_spill_rec (bk_actual b) v, r, work, call (work + offset) nwork t))
          end)
      end)
  end).

(** static_cast<uint64>(adjust * kh.block_size), adjust being 1.75:
    include/nudb/impl/verify.ipp:54, 193-194, 211-212. *)
Definition vn_adjust (bs : N) : N := 7 * bs / 4.

(** One bucket of the key file in the second phase: include/nudb/impl/verify.ipp:186-250.
    The bucket itself and each of its entries add to the work (193-194, 210-212), the
    entries of spill records do not. *)
Definition vnp_bucket_step (e : env) (kh : key_header) (nwork : N) (st : N * vinfo * N * vtrace)
  : prog ((N * vinfo * N * vtrace) + res (vtrace * res vinfo)) :=
  let '(n, v, work, t) := st in
  if n <? kh_buckets kh then
    bind (bk_read (fresh e (kh_block_size kh)) FKey ((n + 1) * kh_block_size kh)) (fun a =>
    match a with
    | Er er => Ret (inr (Ok (t, Er er)))
    | Ok b =>
      let work := work + vn_adjust (kh_block_size kh) + bk_size b * vn_adjust (kh_block_size kh) in
      bind (loop (vn_chain_step e kh) (b, 0, v)) (fun a =>
      match a with
      | Er er => Ret (inr (Ok (t, Er er)))
      | Ok (nspill, v) => Ret (inl (n + 1, vi_bucket nspill v, work, call work nwork t))
      end)
    end)
  else Ret (inr (Ok (t, Ok v))).

(** keys: include/nudb/impl/verify.ipp:57-58.  Computed in double in the code, which is
    exact below 2^53. *)
Definition vn_keys (kh : key_header) : N :=
  kh_load_factor kh * kh_buckets kh * kh_capacity kh / 65536.

(** nwork: include/nudb/impl/verify.ipp:59-61.  Computed in double in the code, which is
    exact below 2^51. *)
Definition vn_work (kh : key_header) (dat_size key_size : N) : N :=
  (4 * (dat_size + vn_keys kh * kh_block_size kh) + 7 * (key_size + vn_keys kh * kh_block_size kh)) / 4.

(** verify_normal: include/nudb/impl/verify.ipp:34-276. *)
Definition vnp (e : env) (kh : key_header) (dat_size key_size : N) : prog (res (vtrace * res vinfo)) :=
  let nwork := vn_work kh dat_size key_size in
  let r := br_make FDat dat_hdr_size dat_size (1024 * kh_block_size kh) in
  x <- loop (vnp_record e kh nwork) (vinfo0 0, r, 0, call 0 nwork []) ;;
  match x with
  | (t, Er er) => pret (t, Er er)
  | (t, Ok (v, work)) => loop (vnp_bucket_step e kh nwork) (0, v, work + dat_size, t)
  end.

(** One record of the data file in verify_fast: include/nudb/impl/verify.ipp:377-496.  A
    value whose bucket is not in the buffer is passed over without a call (418-419). *)
Definition vfp_record (e : env) (kh : key_header) (b0 b1 : N) (buf : bytes) (tmp work nwork : N)
    (st : list N * vinfo * breader * vtrace)
  : prog ((list N * vinfo * breader * vtrace) + res (vtrace * res (list N * vinfo))) :=
  let '(nkeys, v, r, t) := st in
  let stop (er : err) := Ret (inr (Ok (t, Er er))) in
  let bs := kh_block_size kh in
  if br_eof r then Ret (inr (Ok (t, Ok (nkeys, v))))
  else
  let offset := br_offset r in
  bind (br_prepare r 6) (fun a =>
  match a with
  | Er short_read => stop short_data_record
  | Er er => stop er
  | Ok (is, r) =>
    let size := rd_size48 is in
    if 0 <? size then
      bind (br_prepare r (kh_key_size kh + size)) (fun a =>
      match a with
      | Er short_read => stop short_value
      | Er er => stop er
      | Ok (is, r) =>
        let h := hash (e_hasher e) (kh_salt kh) (btake (kh_key_size kh) is) in
        let n := bucket_index h (kh_buckets kh) (kh_modulus kh) in
        if (n <? b0) || (b1 <=? n) then Ret (inl (nkeys, v, r, t))
        else
          bind (vfind e bs h offset (bk_of_blob (bsub ((n - b0) * bs) bs buf))) (fun a =>
          match a with
          | Er er => stop er
          | Ok _ =>
            if nthN nkeys (n - b0) 0 =? 0 then stop orphaned_value
            else Ret (inl (dec_at (N.to_nat (n - b0)) nkeys, vi_value size v, r, call (work + offset) nwork t))
          end)
      end)
    else
      bind (br_prepare r 2) (fun a =>
      match a with
      | Er short_read => stop short_spill
      | Er er => stop er
      | Ok (is, r) =>
        let size := rd16 is in
        if negb (bucket_size (bucket_capacity size) =? size) then stop invalid_spill_size
        else
          bind (br_prepare r size) (fun a =>
          match a with
          | Er short_read => stop short_spill
          | Er er => stop er
          | Ok (_, r) =>
            Ret (inl (nkeys, if b0 =? 0 then vi_spill_rec (bucket_size tmp) v else v, r,
                      call (work + offset) nwork t))
          end)
      end)
  end).

(** One pass over the data file: include/nudb/impl/verify.ipp:327-507. *)
Definition vfp_pass (e : env) (kh : key_header) (dat_size chunk nwork : N) (st : N * N * vinfo * N * vtrace)
  : prog ((N * N * vinfo * N * vtrace) + res (vtrace * res vinfo)) :=
  let '(b0, tmp, v, work, t) := st in
  let bs := kh_block_size kh in
  if b0 <? kh_buckets kh then
    let b1 := N.min (b0 + chunk) (kh_buckets kh) in
    let bn := b1 - b0 in
    bind (p_read FKey ((b0 + 1) * bs) (bn * bs)) (fun a =>
    match a with
    | Er er => Ret (inr (Ok (t, Er er)))
    | Ok buf =>
      let work := work + bn * bs in
      let t := call work nwork t in
      bind (vf_count e bs (N.to_nat bn) buf 0 tmp v) (fun a =>
      match a with
      | Er er => Ret (inr (Ok (t, Er er)))
      | Ok (nkeys, tmp, v) =>
        let r := br_make FDat dat_hdr_size dat_size (1024 * bs) in
        bind (loop (vfp_record e kh b0 b1 buf tmp work nwork) (nkeys, v, r, t)) (fun a =>
        match a with
        | Er er => Ret (inr (Er er))
        | Ok (t, Er er) => Ret (inr (Ok (t, Er er)))
        | Ok (t, Ok (nkeys, v)) =>
          if forallb (fun x => x =? 0) nkeys then Ret (inl (b0 + chunk, tmp, v, work + dat_size, t))
          else Ret (inr (Ok (t, Er missing_value)))
        end)
      end)
    end)
  else Ret (inr (Ok (t, Ok v))).

(** passes and nwork: include/nudb/impl/verify.ipp:314-320. *)
Definition vf_passes (kh : key_header) (buffer_size : N) : N :=
  let chunk := verify_chunk kh buffer_size in (kh_buckets kh + chunk - 1) / chunk.
Definition vf_work (kh : key_header) (dat_size key_size buffer_size : N) : N :=
  vf_passes kh buffer_size * dat_size + key_size.

(** verify_fast: include/nudb/impl/verify.ipp:280-533. *)
Definition vfp (e : env) (kh : key_header) (dat_size key_size buffer_size : N)
  : prog (res (vtrace * res vinfo)) :=
  if buffer_size <? 2 * kh_block_size kh + 8 then pret ([], Er EThrow)
  else
    let nwork := vf_work kh dat_size key_size buffer_size in
    let tmp := bk_size (bk_of_blob (fresh e (kh_block_size kh))) in
    loop (vfp_pass e kh dat_size (verify_chunk kh buffer_size) nwork) (0, tmp, vinfo0 1, 0, call 0 nwork []).

(** verify(): include/nudb/impl/verify.ipp:537-630, the calls of progress it makes and its
    result.  No call is made before one of the algorithms runs. *)
Definition verify_open (e : env) : prog (res (key_header * N * N)) :=
  p_open FDat ;;;
  p_open FKey ;;;
  dh <- read_dat_header ;;
  plift (verify_dat dh) ;;;
  kh <- read_key_header ;;
  plift (verify_key (e_hasher e) kh) ;;;
  plift (verify_dat_key (e_hasher e) dh kh) ;;;
  key_size <- p_size FKey ;;
  dat_size <- p_size FDat ;;
  pret (kh, dat_size, key_size).

Definition verify_progress (e : env) (buffer_size : N) : prog (res (vtrace * res vinfo)) :=
  bind (verify_open e) (fun x =>
  match x with
  | Er er => pret ([], Er er)
  | Ok (kh, dat_size, key_size) =>
    if verify_choose_normal kh dat_size key_size buffer_size then vnp e kh dat_size key_size
    else vfp e kh dat_size key_size buffer_size
  end).
