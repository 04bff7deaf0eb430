(** Checking the consistency of a database: include/nudb/impl/verify.ipp.

    Left out: the calls of the progress object with the work estimates passed to it (see
    Model/VerifyProgress.v), and the members of verify_info computed in floating point with
    the count of fetches they need (see Model/VerifyFetch.v).  Counters are unbounded. *)
From Verif Require Import Model.Bytes Model.Err Model.Field Model.Format Model.IO
  Model.BulkIO Model.Bucket Model.Recover.

(** verify_info: include/nudb/verify.hpp:24-119, the members counted by verify. *)
Record vinfo := VInfo {
  vi_algorithm : N;
  vi_key_count : N; vi_value_count : N; vi_value_bytes : N;
  vi_spill_count : N; vi_spill_count_tot : N; vi_spill_bytes : N; vi_spill_bytes_tot : N;
  vi_hist : list N }.

(** info = {}: include/nudb/impl/verify.ipp:551. *)
Definition vinfo0 (alg : N) : vinfo := VInfo alg 0 0 0 0 0 0 0 (repeat 0 10).

(** A value found in the index: include/nudb/impl/verify.ipp:140-143, 449-452. *)
Definition vi_value (size : N) (v : vinfo) : vinfo :=
  VInfo (vi_algorithm v) (vi_key_count v) (vi_value_count v + 1) (vi_value_bytes v + size)
    (vi_spill_count v) (vi_spill_count_tot v) (vi_spill_bytes v) (vi_spill_bytes_tot v) (vi_hist v).

(** A spill record in the data file, [n] being actual_size() of the bucket the code
    asks: include/nudb/impl/verify.ipp:173-177, 486-493. *)
Definition vi_spill_rec (n : N) (v : vinfo) : vinfo :=
  VInfo (vi_algorithm v) (vi_key_count v) (vi_value_count v) (vi_value_bytes v)
    (vi_spill_count v) (vi_spill_count_tot v + 1) (vi_spill_bytes v)
    (vi_spill_bytes_tot v + (6 + 2 + n)) (vi_hist v).

(** Keys in a bucket: include/nudb/impl/verify.ipp:198, 372. *)
Definition vi_keys (n : N) (v : vinfo) : vinfo :=
  VInfo (vi_algorithm v) (vi_key_count v + n) (vi_value_count v) (vi_value_bytes v)
    (vi_spill_count v) (vi_spill_count_tot v) (vi_spill_bytes v) (vi_spill_bytes_tot v) (vi_hist v).

(** A spill record in use: include/nudb/impl/verify.ipp:239-244, 362-367. *)
Definition vi_spill (n : N) (v : vinfo) : vinfo :=
  VInfo (vi_algorithm v) (vi_key_count v) (vi_value_count v) (vi_value_bytes v)
    (vi_spill_count v + 1) (vi_spill_count_tot v) (vi_spill_bytes v + (6 + 2 + n))
    (vi_spill_bytes_tot v) (vi_hist v).

(** The histogram of chain lengths: include/nudb/impl/verify.ipp:246-248, 369-371. *)
Fixpoint hist_bump (n : nat) (l : list N) : list N :=
  match l with
  | [] => []
  | x :: l' => match n with O => x + 1 :: l' | S n' => x :: hist_bump n' l' end
  end.
Definition vi_bucket (nspill : N) (v : vinfo) : vinfo :=
  VInfo (vi_algorithm v) (vi_key_count v) (vi_value_count v) (vi_value_bytes v)
    (vi_spill_count v) (vi_spill_count_tot v) (vi_spill_bytes v) (vi_spill_bytes_tot v)
    (hist_bump (N.to_nat (N.min nspill 9)) (vi_hist v)).

(** The search for the entry of a record in one bucket: include/nudb/impl/verify.ipp:114-123,
    422-431; [fuel] is size()-i. *)
Fixpoint vfind_scan (fuel : nat) (h offset : N) (b : bucket) (i : N) : bool :=
  match fuel with
  | O => false
  | S fuel' =>
    let item := bk_at b i in
    if negb (en_hash item =? h) then false
    else if en_off item =? offset then true
    else vfind_scan fuel' h offset b (i + 1)
  end.

(** One iteration of the search along the chain: include/nudb/impl/verify.ipp:112-139,
    420-448.  Every b.read overwrites what is used of the block before, so each is
    modelled as a read into fresh memory.  A bucket of the key file that verify_fast
    has in its buffer has not been checked: a size beyond the capacity makes it read on
    into the neighbouring blocks, where the model stops with EUB. *)
Definition vfind_step (e : env) (bs h offset : N) (b : bucket) : prog (bucket + res unit) :=
  if bucket_capacity bs <? bk_size b then Ret (inr (Er EUB)) else
  let i := bk_lower_bound b h in
  if vfind_scan (N.to_nat (bk_size b - i)) h offset b i then Ret (inr (Ok tt))
  else if bk_spill b =? 0 then Ret (inr (Er orphaned_value))
  else
    bind (bk_read (fresh e bs) FDat (bk_spill b)) (fun r =>
    match r with
    | Ok b => Ret (inl b)
    | Er short_read => Ret (inr (Er short_spill))
    | Er er => Ret (inr (Er er))
    end).

Definition vfind (e : env) (bs h offset : N) (b : bucket) : prog (res unit) :=
  loop (vfind_step e bs h offset) b.

(** One record of the data file in verify_normal: include/nudb/impl/verify.ipp:78-180. *)
Definition vn_record (e : env) (kh : key_header) (st : vinfo * breader)
  : prog ((vinfo * breader) + res vinfo) :=
  let '(v, r) := st in
  let stop (er : err) := Ret (inr (Er er)) in
  let bs := kh_block_size kh in
  if br_eof r then Ret (inr (Ok v))
  else
  let offset := br_offset r in
  bind (br_prepare r 6) (fun a =>
  match a with
  | Er er => stop er
  | Ok (is, r) =>
    let size := rd_size48 is in
    if 0 <? size then
      bind (br_prepare r (kh_key_size kh + size)) (fun a =>
      match a with
      | Er er => stop er
      | Ok (is, r) =>
        let h := hash (e_hasher e) (kh_salt kh) (btake (kh_key_size kh) is) in
        let n := bucket_index h (kh_buckets kh) (kh_modulus kh) in
        bind (bk_read (fresh e bs) FKey ((n + 1) * bs)) (fun a =>
        match a with
        | Er er => stop er
        | Ok b =>
          bind (vfind e bs h offset b) (fun a =>
          match a with
          | Er er => stop er
          | Ok _ => Ret (inl (vi_value size v, r))
          end)
        end)
      end)
    else
      bind (br_prepare r 2) (fun a =>
      match a with
      | Er short_read => stop short_spill
      | Er er => stop er
      | Ok (is, r) =>
        let size := rd16 is in
        if negb (size =? bucket_size (kh_capacity kh)) then stop invalid_spill_size
        else
          bind (bk_read_bulk (bk_of_blob (fresh e bs)) r) (fun a =>
          match a with
          | (_, Er short_read) => stop short_spill
          | (_, Er er) => stop er
          | (b, Ok r) => Ret (inl (vi_spill_rec (bk_actual b) v, r))
          end)
      end)
  end).

(** The entries of one bucket in the second phase: include/nudb/impl/verify.ipp:199-232;
    [fuel] is size()-i. *)
Fixpoint vn_entries (e : env) (kh : key_header) (fuel : nat) (b : bucket) (i : N) : prog (res unit) :=
  match fuel with
  | O => pret tt
  | S fuel' =>
    let en := bk_at b i in
    bind (p_read FDat (en_off en) (6 + kh_key_size kh)) (fun a =>
    match a with
    | Er short_read => pfail missing_value
    | Er er => pfail er
    | Ok d =>
      let size := rd48 (btake 6 d) in
      let key := bdrop 6 d in
      if negb (size =? en_size en) then pfail size_mismatch
      else if negb (hash (e_hasher e) (kh_salt kh) key =? en_hash en) then pfail hash_mismatch
      else vn_entries e kh fuel' b (i + 1)
    end)
  end.

(** One bucket of a chain in the second phase: include/nudb/impl/verify.ipp:196-245. *)
Definition vn_chain_step (e : env) (kh : key_header) (st : bucket * N * vinfo)
  : prog ((bucket * N * vinfo) + res (N * vinfo)) :=
  let '(b, nspill, v) := st in
  let v := vi_keys (bk_size b) v in
  bind (vn_entries e kh (N.to_nat (bk_size b)) b 0) (fun a =>
  match a with
  | Er er => Ret (inr (Er er))
  | Ok _ =>
    if bk_spill b =? 0 then Ret (inr (Ok (nspill, v)))
    else
      bind (bk_read (fresh e (kh_block_size kh)) FDat (bk_spill b)) (fun a =>
      match a with
      | Er er => Ret (inr (Er er))
      | Ok b => Ret (inl (b, nspill + 1, vi_spill (bk_actual b) v))
      end)
  end).

(** One bucket of the key file in the second phase: include/nudb/impl/verify.ipp:186-250. *)
Definition vn_bucket_step (e : env) (kh : key_header) (st : N * vinfo)
  : prog ((N * vinfo) + res vinfo) :=
  let '(n, v) := st in
  if n <? kh_buckets kh then
    bind (bk_read (fresh e (kh_block_size kh)) FKey ((n + 1) * kh_block_size kh)) (fun a =>
    match a with
    | Er er => Ret (inr (Er er))
    | Ok b =>
      bind (loop (vn_chain_step e kh) (b, 0, v)) (fun a =>
      match a with
      | Er er => Ret (inr (Er er))
      | Ok (nspill, v) => Ret (inl (n + 1, vi_bucket nspill v))
      end)
    end)
  else Ret (inr (Ok v)).

(** verify_normal: include/nudb/impl/verify.ipp:34-276. *)
Definition verify_normal (e : env) (kh : key_header) (dat_size : N) : prog (res vinfo) :=
  let r := br_make FDat dat_hdr_size dat_size (1024 * kh_block_size kh) in
  v <- loop (vn_record e kh) (vinfo0 0, r) ;;
  loop (vn_bucket_step e kh) (0, v).

(** Counting the keys of the chain of one bucket in verify_fast:
    include/nudb/impl/verify.ipp:350-368.  [tmp] is size_ of the bucket object tmp. *)
Definition vf_count_step (e : env) (bs : N) (st : N * N * N * N * vinfo)
  : prog ((N * N * N * N * vinfo) + res (N * N * N * vinfo)) :=
  let '(spill, nkeys, nspill, tmp, v) := st in
  if spill =? 0 then Ret (inr (Ok (nkeys, nspill, tmp, v)))
  else
    bind (bk_read (fresh e bs) FDat spill) (fun a =>
    match a with
    | Er short_read => Ret (inr (Er short_spill))
    | Er er => Ret (inr (Er er))
    | Ok b => Ret (inl (bk_spill b, nkeys + bk_size b, nspill + 1, bk_size b, vi_spill (bk_actual b) v))
    end).

(** Counting the keys of all buckets in the buffer [buf]: include/nudb/impl/verify.ipp:343-373;
    returns the counts. *)
Fixpoint vf_count (e : env) (bs : N) (fuel : nat) (buf : bytes) (i tmp : N) (v : vinfo)
  : prog (res (list N * N * vinfo)) :=
  match fuel with
  | O => pret ([], tmp, v)
  | S fuel' =>
    let b := bk_of_blob (bsub (i * bs) bs buf) in
    x <- loop (vf_count_step e bs) (bk_spill b, bk_size b, 0, tmp, v) ;;
    let '(nkeys, nspill, tmp, v) := x in
    y <- vf_count e bs fuel' buf (i + 1) tmp (vi_keys nkeys (vi_bucket nspill v)) ;;
    let '(l, tmp, v) := y in
    pret (nkeys :: l, tmp, v)
  end.

(** nkeys[i]--: include/nudb/impl/verify.ipp:453. *)
Fixpoint dec_at (i : nat) (l : list N) : list N :=
  match l with
  | [] => []
  | x :: l' => match i with O => x - 1 :: l' | S i' => x :: dec_at i' l' end
  end.

(** One record of the data file in verify_fast: include/nudb/impl/verify.ipp:377-496.
    [buf] holds the buckets b0 to b1-1, [tmp] is the size_ of tmp, which only the
    counting of keys sets. *)
Definition vf_record (e : env) (kh : key_header) (b0 b1 : N) (buf : bytes) (tmp : N)
    (st : list N * vinfo * breader)
  : prog ((list N * vinfo * breader) + res (list N * vinfo)) :=
  let '(nkeys, v, r) := st in
  let stop (er : err) := Ret (inr (Er er)) in
  let bs := kh_block_size kh in
  if br_eof r then Ret (inr (Ok (nkeys, v)))
  else
  let offset := br_offset r in
  bind (br_prepare r 6) (fun a =>
  match a with
  | Er short_read => stop short_data_record
  | Er er => stop er
  | Ok (is, r) =>
    let size := rd_size48 is in
    if 0 <? size then
      bind (br_prepare r (kh_key_size kh + size)) (fun a =>
      match a with
      | Er short_read => stop short_value
      | Er er => stop er
      | Ok (is, r) =>
        let h := hash (e_hasher e) (kh_salt kh) (btake (kh_key_size kh) is) in
        let n := bucket_index h (kh_buckets kh) (kh_modulus kh) in
        if (n <? b0) || (b1 <=? n) then Ret (inl (nkeys, v, r))
        else
          bind (vfind e bs h offset (bk_of_blob (bsub ((n - b0) * bs) bs buf))) (fun a =>
          match a with
          | Er er => stop er
          | Ok _ =>
            if nthN nkeys (n - b0) 0 =? 0 then stop orphaned_value
            else Ret (inl (dec_at (N.to_nat (n - b0)) nkeys, vi_value size v, r))
          end)
      end)
    else
      bind (br_prepare r 2) (fun a =>
      match a with
      | Er short_read => stop short_spill
      | Er er => stop er
      | Ok (is, r) =>
        let size := rd16 is in
        if negb (bucket_size (bucket_capacity size) =? size) then stop invalid_spill_size
        else
          bind (br_prepare r size) (fun a =>
          match a with
          | Er short_read => stop short_spill
          | Er er => stop er
          | Ok (_, r) =>
            Ret (inl (nkeys, if b0 =? 0 then vi_spill_rec (bucket_size tmp) v else v, r))
          end)
      end)
  end).

(** One pass over the data file: include/nudb/impl/verify.ipp:327-507. *)
Definition vf_pass (e : env) (kh : key_header) (dat_size chunk : N) (st : N * N * vinfo)
  : prog ((N * N * vinfo) + res vinfo) :=
  let '(b0, tmp, v) := st in
  let bs := kh_block_size kh in
  let stop (er : err) := Ret (inr (Er er)) in
  if b0 <? kh_buckets kh then
    let b1 := N.min (b0 + chunk) (kh_buckets kh) in
    let bn := b1 - b0 in
    bind (p_read FKey ((b0 + 1) * bs) (bn * bs)) (fun a =>
    match a with
    | Er er => stop er
    | Ok buf =>
      bind (vf_count e bs (N.to_nat bn) buf 0 tmp v) (fun a =>
      match a with
      | Er er => stop er
      | Ok (nkeys, tmp, v) =>
        let r := br_make FDat dat_hdr_size dat_size (1024 * bs) in
        bind (loop (vf_record e kh b0 b1 buf tmp) (nkeys, v, r)) (fun a =>
        match a with
        | Er er => stop er
        | Ok (nkeys, v) =>
          if forallb (fun x => x =? 0) nkeys then Ret (inl (b0 + chunk, tmp, v))
          else stop missing_value
        end)
      end)
    end)
  else Ret (inr (Ok v)).

(** chunkSize: include/nudb/impl/verify.ipp:309-313, 601-607 (0 when the buffer is too
    small). *)
Definition verify_chunk (kh : key_header) (buffer_size : N) : N :=
  let bs := kh_block_size kh in
  if 2 * bs + 8 <=? buffer_size then N.min (kh_buckets kh) ((buffer_size - bs) / (bs + 8)) else 0.

(** verify_fast: include/nudb/impl/verify.ipp:280-533.  The test of the number of buckets
    against the largest std::size_t never fails.  tmp is constructed from the
    uninitialised memory behind the buckets (324-326). *)
Definition verify_fast (e : env) (kh : key_header) (dat_size buffer_size : N) : prog (res vinfo) :=
  if buffer_size <? 2 * kh_block_size kh + 8 then pfail EThrow
  else
    let tmp := bk_size (bk_of_blob (fresh e (kh_block_size kh))) in
    loop (vf_pass e kh dat_size (verify_chunk kh buffer_size)) (0, tmp, vinfo0 1).

(** The estimates that decide between the algorithms, in 64-bit arithmetic:
    include/nudb/impl/verify.ipp:608-620. *)
Definition verify_choose_normal (kh : key_header) (dat_size key_size buffer_size : N) : bool :=
  let chunk := verify_chunk kh buffer_size in
  let passes := (kh_buckets kh + chunk - 1) / chunk in
  (chunk =? 0) ||
  ((dat_size + kh_buckets kh * kh_load_factor kh * kh_capacity kh * kh_block_size kh + key_size) mod 2 ^ 64
   <? (passes * dat_size + key_size) mod 2 ^ 64).

(** verify: include/nudb/impl/verify.ipp:537-630. *)
Definition verify (e : env) (buffer_size : N) : prog (res vinfo) :=
  p_open FDat ;;;
  p_open FKey ;;;
  dh <- read_dat_header ;;
  plift (verify_dat dh) ;;;
  kh <- read_key_header ;;
  plift (verify_key (e_hasher e) kh) ;;;
  plift (verify_dat_key (e_hasher e) dh kh) ;;;
  key_size <- p_size FKey ;;
  dat_size <- p_size FDat ;;
  if verify_choose_normal kh dat_size key_size buffer_size then verify_normal e kh dat_size
  else verify_fast e kh dat_size buffer_size.
