(** The ratios reported by verify(): include/nudb/impl/verify.ipp.

    The functions of Model/Verify.v with the variable fetches, from which avg_fetch is
    made, and the members of verify_info computed in floating point at the end.  Each of
    these is modelled as the numbers that are divided; how the quotient is rounded to a
    float is left out.  Model/Verify.v's counting of keys ([vf_count]) and its second
    phase ([vn_bucket_step]) are used as they are: they do not touch fetches. *)
From Verif Require Import Model.Bytes Model.Err Model.Field Model.Format Model.IO
  Model.BulkIO Model.Bucket Model.Recover Model.Verify Model.VerifyProgress.

(** The search for the entry of a record in one bucket with the count of fetches:
    include/nudb/impl/verify.ipp:114-123, 422-431; [fuel] is size()-i. *)
Fixpoint vfindc_scan (fuel : nat) (h offset : N) (b : bucket) (i fetches : N) : bool * N :=
  match fuel with
  | O => (false, fetches)
  | S fuel' =>
    let item := bk_at b i in
    if negb (en_hash item =? h) then (false, fetches)
    else if en_off item =? offset then (true, fetches)
    else vfindc_scan fuel' h offset b (i + 1) (fetches + 1)
  end.

(** One iteration of the search along the chain: include/nudb/impl/verify.ipp:112-139,
    420-448; see [vfind_step]. *)
Definition vfindc_step (e : env) (bs h offset : N) (st : bucket * N) : prog ((bucket * N) + res N) :=
  let '(b, fetches) := st in
  if bucket_capacity bs <? bk_size b then Ret (inr (Er EUB)) else
  let i := bk_lower_bound b h in
  let '(found, fetches) := vfindc_scan (N.to_nat (bk_size b - i)) h offset b i fetches in
  if found then Ret (inr (Ok fetches))
  else if bk_spill b =? 0 then Ret (inr (Er orphaned_value))
  else
    bind (bk_read (fresh e bs) FDat (bk_spill b)) (fun r =>
    match r with
    | Ok b => Ret (inl (b, fetches + 1))
    | Er short_read => Ret (inr (Er short_spill))
    | Er er => Ret (inr (Er er))
    end).

Definition vfindc (e : env) (bs h offset : N) (b : bucket) (fetches : N) : prog (res N) :=
  loop (vfindc_step e bs h offset) (b, fetches).

(** One record of the data file in verify_normal: include/nudb/impl/verify.ipp:78-180. *)
Definition vnf_record (e : env) (kh : key_header) (st : vinfo * N * breader)
  : prog ((vinfo * N * breader) + res (vinfo * N)) :=
  let '(v, fetches, r) := st in
  let stop (er : err) := Ret (inr (Er er)) in
  let bs := kh_block_size kh in
  if br_eof r then Ret (inr (Ok (v, fetches)))
  else
  let offset := br_offset r in
  bind (br_prepare r 6) (fun a =>
  match a with
  | Er er => stop er
  | Ok (is, r) =>
    let size := rd_size48 is in
    if 0 <? size then
      bind (br_prepare r (kh_key_size kh + size)) (fun a =>
      match a with
      | Er er => stop er
      | Ok (is, r) =>
        let h := hash (e_hasher e) (kh_salt kh) (btake (kh_key_size kh) is) in
        let n := bucket_index h (kh_buckets kh) (kh_modulus kh) in
        bind (bk_read (fresh e bs) FKey ((n + 1) * bs)) (fun a =>
        match a with
        | Er er => stop er
        | Ok b =>
          bind (vfindc e bs h offset b (fetches + 1)) (fun a =>
          match a with
          | Er er => stop er
          | Ok fetches => Ret (inl (vi_value size v, fetches, r))
          end)
        end)
      end)
    else
      bind (br_prepare r 2) (fun a =>
      match a with
      | Er short_read => stop short_spill
      | Er er => stop er
      | Ok (is, r) =>
        let size := rd16 is in
        if negb (size =? bucket_size (kh_capacity kh)) then stop invalid_spill_size
        else
          bind (bk_read_bulk (bk_of_blob (fresh e bs)) r) (fun a =>
          match a with
          | (_, Er short_read) => stop short_spill
          | (_, Er er) => stop er
          | (b, Ok r) => Ret (inl (vi_spill_rec (bk_actual b) v, fetches, r))
          end)
      end)
  end).

(** verify_normal: include/nudb/impl/verify.ipp:34-276. *)
Definition vnf (e : env) (kh : key_header) (dat_size : N) : prog (res (vinfo * N)) :=
  let r := br_make FDat dat_hdr_size dat_size (1024 * kh_block_size kh) in
  x <- loop (vnf_record e kh) (vinfo0 0, 0, r) ;;
  let '(v, fetches) := x in
  v <- loop (vn_bucket_step e kh) (0, v) ;;
  pret (v, fetches).

(** One record of the data file in verify_fast: include/nudb/impl/verify.ipp:377-496. *)
Definition vff_record (e : env) (kh : key_header) (b0 b1 : N) (buf : bytes) (tmp : N)
    (st : list N * vinfo * N * breader)
  : prog ((list N * vinfo * N * breader) + res (list N * vinfo * N)) :=
  let '(nkeys, v, fetches, r) := st in
  let stop (er : err) := Ret (inr (Er er)) in
  let bs := kh_block_size kh in
  if br_eof r then Ret (inr (Ok (nkeys, v, fetches)))
  else
  let offset := br_offset r in
  bind (br_prepare r 6) (fun a =>
  match a with
  | Er short_read => stop short_data_record
  | Er er => stop er
  | Ok (is, r) =>
    let size := rd_size48 is in
    if 0 <? size then
      bind (br_prepare r (kh_key_size kh + size)) (fun a =>
      match a with
      | Er short_read => stop short_value
      | Er er => stop er
      | Ok (is, r) =>
        let h := hash (e_hasher e) (kh_salt kh) (btake (kh_key_size kh) is) in
        let n := bucket_index h (kh_buckets kh) (kh_modulus kh) in
        if (n <? b0) || (b1 <=? n) then Ret (inl (nkeys, v, fetches, r))
        else
          bind (vfindc e bs h offset (bk_of_blob (bsub ((n - b0) * bs) bs buf)) (fetches + 1)) (fun a =>
          match a with
          | Er er => stop er
          | Ok fetches =>
            if nthN nkeys (n - b0) 0 =? 0 then stop orphaned_value
            else Ret (inl (dec_at (N.to_nat (n - b0)) nkeys, vi_value size v, fetches, r))
          end)
      end)
    else
      bind (br_prepare r 2) (fun a =>
      match a with
      | Er short_read => stop short_spill
      | Er er => stop er
      | Ok (is, r) =>
        let size := rd16 is in
        if negb (bucket_size (bucket_capacity size) =? size) then stop invalid_spill_size
        else
          bind (br_prepare r size) (fun a =>
          match a with
          | Er short_read => stop short_spill
          | Er er => stop er
          | Ok (_, r) =>
            Ret (inl (nkeys, if b0 =? 0 then vi_spill_rec (bucket_size tmp) v else v, fetches, r))
          end)
      end)
  end).

(** One pass over the data file: include/nudb/impl/verify.ipp:327-507. *)
Definition vff_pass (e : env) (kh : key_header) (dat_size chunk : N) (st : N * N * vinfo * N)
  : prog ((N * N * vinfo * N) + res (vinfo * N)) :=
  let '(b0, tmp, v, fetches) := st in
  let bs := kh_block_size kh in
  let stop (er : err) := Ret (inr (Er er)) in
  if b0 <? kh_buckets kh then
    let b1 := N.min (b0 + chunk) (kh_buckets kh) in
    let bn := b1 - b0 in
    bind (p_read FKey ((b0 + 1) * bs) (bn * bs)) (fun a =>
    match a with
    | Er er => stop er
    | Ok buf =>
      bind (vf_count e bs (N.to_nat bn) buf 0 tmp v) (fun a =>
      match a with
      | Er er => stop er
      | Ok (nkeys, tmp, v) =>
        let r := br_make FDat dat_hdr_size dat_size (1024 * bs) in
        bind (loop (vff_record e kh b0 b1 buf tmp) (nkeys, v, fetches, r)) (fun a =>
        match a with
        | Er er => stop er
        | Ok (nkeys, v, fetches) =>
          if forallb (fun x => x =? 0) nkeys then Ret (inl (b0 + chunk, tmp, v, fetches))
          else stop missing_value
        end)
      end)
    end)
  else Ret (inr (Ok (v, fetches))).

(** verify_fast: include/nudb/impl/verify.ipp:280-533. *)
Definition vff (e : env) (kh : key_header) (dat_size buffer_size : N) : prog (res (vinfo * N)) :=
  if buffer_size <? 2 * kh_block_size kh + 8 then pfail EThrow
  else
    let tmp := bk_size (bk_of_blob (fresh e (kh_block_size kh))) in
    loop (vff_pass e kh dat_size (verify_chunk kh buffer_size)) (0, tmp, vinfo0 1, 0).

(** verify_info: include/nudb/verify.hpp:24-119, with the ratios, each as a numerator and
    a denominator; overhead is 1 less than the quotient given here. *)
Record vreport := VReport {
  vr_info : vinfo;
  vr_avg_fetch : N * N;
  vr_waste : N * N;
  vr_overhead : N * N;
  vr_load : N * N }.

(** The end of both algorithms: include/nudb/impl/verify.ipp:252-275, 509-532.  The
    differences and products are 64-bit. *)
Definition vreport_of (kh : key_header) (dat_size key_size : N) (x : vinfo * N) : vreport :=
  let '(v, fetches) := x in
  let m n := n mod 2 ^ 64 in
  VReport v
    (if vi_value_count v =? 0 then (0, 1) else (fetches, vi_value_count v))
    (m (vi_spill_bytes_tot v + 2 ^ 64 - vi_spill_bytes v), dat_size)
    (if vi_value_count v =? 0 then (1, 1)
     else (m (key_size + dat_size), m (vi_value_bytes v + vi_key_count v * (kh_key_size kh + 6))))
    (vi_key_count v, m (kh_capacity kh * kh_buckets kh)).

(** verify(): include/nudb/impl/verify.ipp:537-630. *)
Definition verify_report (e : env) (buffer_size : N) : prog (res vreport) :=
  x <- verify_open e ;;
  let '(kh, dat_size, key_size) := x in
  y <- (if verify_choose_normal kh dat_size key_size buffer_size then vnf e kh dat_size
        else vff e kh dat_size buffer_size) ;;
  pret (vreport_of kh dat_size key_size y).
