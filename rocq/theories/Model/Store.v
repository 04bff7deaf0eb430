(** The store: include/nudb/impl/basic_store.ipp. *)
From Verif Require Import Model.Bytes Model.Err Model.Field Model.Format Model.IO
  Model.BulkIO Model.Bucket Model.Pool Model.Recover.

(** State of an open store: include/nudb/basic_store.hpp:66-150 (struct state and
    the members of basic_store).  Left out: file handles (files are named), the
    rate limiter (when, rate, burst: it only delays callers), locks (see
    Concurrent.v). *)
Record store := Store {
  st_kh : key_header;
  st_p0 : pool; st_p1 : pool; st_c1 : cache;
  st_frac : N; st_thresh : N; st_buckets : N; st_modulus : N;
  st_ec : option err }.

(** dataWriteSize_ and logWriteSize_: include/nudb/impl/basic_store.ipp:183-184
    with nudb::block_size() = 4096 (include/nudb/file.hpp). *)
Definition dataWriteSize : N := 131072.
Definition logWriteSize : N := 131072.

(** open(): include/nudb/impl/basic_store.ipp:117-188.  Registration with the
    context is in Context.v. *)
Definition store_open (e : env) : prog (res store) :=
  recover e ;;;
  p_open FDat ;;;
  p_open FKey ;;;
  p_create FLog ;;;
  dh <- read_dat_header ;;
  plift (verify_dat dh) ;;;
  kh <- read_key_header ;;
  plift (verify_key (e_hasher e) kh) ;;;
  plift (verify_dat_key (e_hasher e) dh kh) ;;;
  let thresh := N.max 65536 (kh_load_factor kh * kh_capacity kh) in
  if kh_buckets kh <? 1 then pfail short_key_file
  else
    pret (Store kh pool_empty pool_empty [] (thresh / 2) thresh
            (kh_buckets kh) (ceil_pow2 (kh_buckets kh)) None).

(** The inner loop of fetch over one bucket: include/nudb/impl/basic_store.ipp:374-396.
    [fuel] bounds the number of iterations by size()-i. *)
Fixpoint fetch_scan (fuel : nat) (ks h : N) (key : bytes) (b : bucket) (i : N)
  : prog (res (option bytes)) :=
  match fuel with
  | O => pret None
  | S fuel' =>
    let item := bk_at b i in
    if negb (en_hash item =? h) then pret None
    else
      d <- p_read FDat (en_off item + 6) (ks + en_size item) ;;
      if beq (btake ks d) key then pret (Some (bdrop ks d))
      else fetch_scan fuel' ks h key b (i + 1)
  end.

(** One iteration of the outer loop of fetch: include/nudb/impl/basic_store.ipp:372-406. *)
Definition fetch_step (e : env) (kh : key_header) (h : N) (key : bytes) (b : bucket)
  : prog (bucket + res bytes) :=
  let i := bk_lower_bound b h in
  bind (fetch_scan (N.to_nat (bk_size b - i)) (kh_key_size kh) h key b i) (fun r =>
  match r with
  | Er er => Ret (inr (Er er))
  | Ok (Some v) => Ret (inr (Ok v))
  | Ok None =>
    if bk_spill b =? 0 then Ret (inr (Er key_not_found))
    else
      bind (bk_read (fresh e (kh_block_size kh)) FDat (bk_spill b)) (fun r =>
      match r with
      | Er er => Ret (inr (Er er))
      | Ok b' => Ret (inl b')
      end)
  end).

(** fetch in a loaded bucket: include/nudb/impl/basic_store.ipp:356-408.  The
    result is the argument of the callback. *)
Definition fetch_bucket (e : env) (kh : key_header) (h : N) (key : bytes) (b : bucket)
  : prog (res bytes) := loop (fetch_step e kh h key) b.

(** fetch(): include/nudb/impl/basic_store.ipp:220-264. *)
Definition store_fetch (e : env) (s : store) (key : bytes) : prog (res bytes) :=
  match st_ec s with
  | Some er => pfail er
  | None =>
    let kh := st_kh s in
    let h := hash (e_hasher e) (kh_salt kh) key in
    match pool_find (st_p1 s) key with
    | Some x => pret (pe_data x)
    | None =>
      match pool_find (st_p0 s) key with
      | Some x => pret (pe_data x)
      | None =>
        let n := bucket_index h (st_buckets s) (st_modulus s) in
        match cache_find (st_c1 s) n with
        | Some p => fetch_bucket e kh h key (bk_of_blob p)
        | None =>
          b <- bk_read (fresh e (kh_block_size kh)) FKey ((n + 1) * kh_block_size kh) ;;
          fetch_bucket e kh h key b
        end
      end
    end
  end.

(** The inner loop of exists over one bucket: include/nudb/impl/basic_store.ipp:429-442. *)
Fixpoint exists_scan (fuel : nat) (ks h : N) (key : bytes) (b : bucket) (i : N)
  : prog (res bool) :=
  match fuel with
  | O => pret false
  | S fuel' =>
    let item := bk_at b i in
    if negb (en_hash item =? h) then pret false
    else
      d <- p_read FDat (en_off item + 6) ks ;;
      if beq d key then pret true
      else exists_scan fuel' ks h key b (i + 1)
  end.

(** One iteration of the outer loop of exists: include/nudb/impl/basic_store.ipp:427-452. *)
Definition exists_step (e : env) (kh : key_header) (h : N) (key : bytes) (b : bucket)
  : prog (bucket + res bool) :=
  let i := bk_lower_bound b h in
  bind (exists_scan (N.to_nat (bk_size b - i)) (kh_key_size kh) h key b i) (fun r =>
  match r with
  | Er er => Ret (inr (Er er))
  | Ok true => Ret (inr (Ok true))
  | Ok false =>
    if bk_spill b =? 0 then Ret (inr (Ok false))
    else
      bind (bk_read (fresh e (kh_block_size kh)) FDat (bk_spill b)) (fun r =>
      match r with
      | Er er => Ret (inr (Er er))
      | Ok b' => Ret (inl b')
      end)
  end).

(** exists(): include/nudb/impl/basic_store.ipp:410-454. *)
Definition exists_bucket (e : env) (kh : key_header) (h : N) (key : bytes) (b : bucket)
  : prog (res bool) := loop (exists_step e kh h key) b.

(** insert(): include/nudb/impl/basic_store.ipp:266-354.  The assertions
    0 < size <= 2^32-1 are EAssert.  Throttling (sleep) is left out. *)
Definition store_insert (e : env) (s : store) (key data : bytes) : prog (res store) :=
  match st_ec s with
  | Some er => pfail er
  | None =>
    if (blen data =? 0) || (4294967295 <? blen data) then pfail EAssert
    else
    let kh := st_kh s in
    let h := hash (e_hasher e) (kh_salt kh) key in
    match pool_find (st_p1 s) key, pool_find (st_p0 s) key with
    | None, None =>
      let n := bucket_index h (st_buckets s) (st_modulus s) in
      found <-
        match cache_find (st_c1 s) n with
        | Some p => exists_bucket e kh h key (bk_of_blob p)
        | None =>
          b <- bk_read (fresh e (kh_block_size kh)) FKey ((n + 1) * kh_block_size kh) ;;
          exists_bucket e kh h key b
        end ;;
      if (found : bool) then pfail key_exists
      else
        pret (Store kh (st_p0 s) (pool_insert (st_p1 s) h key data) (st_c1 s)
                (st_frac s) (st_thresh s) (st_buckets s) (st_modulus s) None)
    | _, _ => pfail key_exists
    end
  end.

(** The first loop of split, over the bucket b1 itself:
    include/nudb/impl/basic_store.ipp:492-508.  Every iteration either advances i
    or shortens b1, so size() iterations suffice.  The BOOST_ASSERT that an entry
    belongs to n1 or n2 is not modelled (any other index is kept in b1, as in a
    release build). *)
Fixpoint split_own (fuel : nat) (n2 buckets modulus : N) (b1 b2 : bucket) (i : N)
  : res (bucket * bucket) :=
  match fuel with
  | O => Ok (b1, b2)
  | S fuel' =>
    let en := bk_at b1 i in
    if bucket_index (en_hash en) buckets modulus =? n2 then
      rbind (bk_insert b2 (en_off en) (en_size en) (en_hash en)) (fun b2 =>
      split_own fuel' n2 buckets modulus (bk_erase b1 i) b2 i)
    else split_own fuel' n2 buckets modulus b1 b2 (i + 1)
  end.

(** The loop of split over the entries of one spill record:
    include/nudb/impl/basic_store.ipp:527-547. *)
Fixpoint split_spill (fuel : nat) (n2 buckets modulus : N) (tmp : bucket) (i : N)
    (b1 b2 : bucket) (w : bwriter) : prog (res (bucket * bucket * bwriter)) :=
  match fuel with
  | O => pret (b1, b2, w)
  | S fuel' =>
    let en := bk_at tmp i in
    if bucket_index (en_hash en) buckets modulus =? n2 then
      '(b2, w) <- maybe_spill b2 w ;;
      b2 <- plift (bk_insert b2 (en_off en) (en_size en) (en_hash en)) ;;
      split_spill fuel' n2 buckets modulus tmp (i + 1) b1 b2 w
    else
      '(b1, w) <- maybe_spill b1 w ;;
      b1 <- plift (bk_insert b1 (en_off en) (en_size en) (en_hash en)) ;;
      split_spill fuel' n2 buckets modulus tmp (i + 1) b1 b2 w
  end.

(** One iteration of the do-while loop of split:
    include/nudb/impl/basic_store.ipp:513-550. *)
Definition split_step (e : env) (kh : key_header) (n2 buckets modulus : N)
    (st : N * bucket * bucket * bwriter)
  : prog ((N * bucket * bucket * bwriter) + res (bucket * bucket * bwriter)) :=
  let '(spill, b1, b2, w) := st in
  bind (
    w <- (if bw_offset w - bw_size w <? spill + bucket_size (kh_capacity kh)
          then bw_flush w else pret w) ;;
    tmp <- bk_read (fresh e (kh_block_size kh)) FDat spill ;;
    '(b1, b2, w) <- split_spill (N.to_nat (bk_size tmp)) n2 buckets modulus tmp 0 b1 b2 w ;;
    pret (bk_spill tmp, b1, b2, w)) (fun r =>
  match r with
  | Er er => Ret (inr (Er er))
  | Ok (spill', b1', b2', w') =>
    if spill' =? 0 then Ret (inr (Ok (b1', b2', w'))) else Ret (inl (spill', b1', b2', w'))
  end).

(** split(): include/nudb/impl/basic_store.ipp:473-552. *)
Definition split (e : env) (kh : key_header) (b1 b2 : bucket) (n2 buckets modulus : N)
    (w : bwriter) : prog (res (bucket * bucket * bwriter)) :=
  if bk_size b1 =? 0 then pret (b1, b2, w)
  else
    '(b1, b2) <- plift (split_own (N.to_nat (bk_size b1)) n2 buckets modulus b1 b2 0) ;;
    let spill := bk_spill b1 in
    if spill =? 0 then pret (b1, b2, w)
    else loop (split_step e kh n2 buckets modulus) (spill, bk_set_spill b1 0, b2, w).

(** load(): include/nudb/impl/basic_store.ipp:554-578.  Returns the bucket and
    the caches (c0, c1). *)
Definition load (e : env) (kh : key_header) (n : N) (c0 c1 : cache)
  : prog (res (bucket * cache * cache)) :=
  match cache_find c1 n with
  | Some p => pret (bk_of_blob p, c0, c1)
  | None =>
    match cache_find c0 n with
    | Some p =>
      let q := cache_blob e (bk_of_blob p) in
      pret (bk_of_blob q, c0, cache_set c1 n q)
    | None =>
      tmp <- bk_read (fresh e (kh_block_size kh)) FKey ((n + 1) * kh_block_size kh) ;;
      let q := cache_blob e tmp in
      pret (bk_of_blob q, cache_set c0 n q, cache_set c1 n q)
    end
  end.

(** Writing the data records of the batch and remembering their offsets:
    include/nudb/impl/basic_store.ipp:636-650. *)
Fixpoint commit_records (l : list pelem) (w : bwriter)
  : prog (res (list (pelem * N) * bwriter)) :=
  match l with
  | [] => pret ([], w)
  | x :: l' =>
    let off := bw_offset w in
    w <- bw_put w (wr48 (blen (pe_data x)) ++ pe_key x ++ pe_data x) ;;
    '(r, w) <- commit_records l' w ;;
    pret ((x, off) :: r, w)
  end.

(** Local variables of the insert loop of commit. *)
Record cstate := CState {
  cs_c0 : cache; cs_c1 : cache; cs_buckets : N; cs_modulus : N; cs_frac : N;
  cs_w : bwriter }.

(** The split performed before an insert when the fraction overflows:
    include/nudb/impl/basic_store.ipp:656-674. *)
Definition commit_split (e : env) (kh : key_header) (thresh : N) (st : cstate)
  : prog (res cstate) :=
  let frac := cs_frac st + 65536 in
  if thresh <=? frac then
    let frac := frac - thresh in
    let modulus := if cs_buckets st =? cs_modulus st then cs_modulus st * 2 else cs_modulus st in
    let n1 := cs_buckets st - modulus / 2 in
    let n2 := cs_buckets st in
    let buckets := cs_buckets st + 1 in
    '(b1, c0, c1) <- load e kh n1 (cs_c0 st) (cs_c1 st) ;;
    let b2 := bk_empty (kh_block_size kh) in
    '(b1, b2, w) <- split e kh b1 b2 n2 buckets modulus (cs_w st) ;;
    let c1 := cache_set (cache_set c1 n1 (bk_blob b1)) n2 (bk_blob b2) in
    pret (CState c0 c1 buckets modulus frac w)
  else pret (CState (cs_c0 st) (cs_c1 st) (cs_buckets st) (cs_modulus st) frac (cs_w st)).

(** One iteration of the insert loop: include/nudb/impl/basic_store.ipp:653-686. *)
Definition commit_insert (e : env) (kh : key_header) (thresh : N) (xo : pelem * N)
    (st : cstate) : prog (res cstate) :=
  let '(x, off) := xo in
  st <- commit_split e kh thresh st ;;
  let n := bucket_index (pe_hash x) (cs_buckets st) (cs_modulus st) in
  '(b, c0, c1) <- load e kh n (cs_c0 st) (cs_c1 st) ;;
  '(b, w) <- maybe_spill b (cs_w st) ;;
  b <- plift (bk_insert b off (blen (pe_data x)) (pe_hash x)) ;;
  pret (CState c0 (cache_set c1 n (bk_blob b)) (cs_buckets st) (cs_modulus st) (cs_frac st) w).

(** The insert loop: include/nudb/impl/basic_store.ipp:653-686. *)
Fixpoint commit_inserts (e : env) (kh : key_header) (thresh : N) (l : list (pelem * N))
    (st : cstate) : prog (res cstate) :=
  match l with
  | [] => pret st
  | xo :: l' =>
    st <- commit_insert e kh thresh xo st ;;
    commit_inserts e kh thresh l' st
  end.

(** The log file header of a commit: include/nudb/impl/basic_store.ipp:605-618. *)
Definition commit_log_header (e : env) (kh : key_header) (kfs dfs : N) : log_header :=
  LogHeader [] currentVersion (kh_uid kh) (kh_appnum kh) (kh_key_size kh) (kh_salt kh)
    (pepper (e_hasher e) (kh_salt kh)) (kh_block_size kh) kfs dfs.

(** Preparing the rollback information: include/nudb/impl/basic_store.ipp:604-625. *)
Definition commit_begin (e : env) (kh : key_header) : prog (res unit) :=
  kfs <- p_size FKey ;;
  dfs <- p_size FDat ;;
  p_write FLog true 0 (enc_log_header (commit_log_header e kh kfs dfs)) ;;;
  p_sync FLog.

(** Appending data and spills, building the new buckets:
    include/nudb/impl/basic_store.ipp:626-690. *)
Definition commit_data (e : env) (kh : key_header) (thresh frac buckets modulus : N)
    (p0 : list pelem) : prog (res cstate) :=
  size <- p_size FDat ;;
  let w := bw_make FDat true size dataWriteSize in
  '(l, w) <- commit_records p0 w ;;
  st <- commit_inserts e kh thresh l (CState [] [] buckets modulus frac w) ;;
  w <- bw_flush (cs_w st) ;;
  pret (CState (cs_c0 st) (cs_c1 st) (cs_buckets st) (cs_modulus st) (cs_frac st) w).

(** A log record: include/nudb/impl/basic_store.ipp:716-718. *)
Definition log_record (nb : N * bytes) : bytes :=
  wr64 (fst nb) ++ bk_compact (bk_of_blob (snd nb)).

(** The loop writing clean buckets to the log: include/nudb/impl/basic_store.ipp:708-719. *)
Fixpoint commit_log_records (c : cache) (w : bwriter) : prog (res bwriter) :=
  match c with
  | [] => pret w
  | nb :: c' =>
    w <- bw_put w (log_record nb) ;;
    commit_log_records c' w
  end.

(** Writing clean buckets to the log: include/nudb/impl/basic_store.ipp:702-727. *)
Definition commit_log (e : env) (c0 : cache) : prog (res unit) :=
  size <- p_size FLog ;;
  let w := bw_make FLog true size logWriteSize in
  w <- commit_log_records (e_iter e c0) w ;;
  bw_flush w ;;;
  p_sync FLog.

(** Writing new buckets to the key file: include/nudb/impl/basic_store.ipp:729-736. *)
Fixpoint commit_key (bs : N) (c : cache) : prog (res unit) :=
  match c with
  | [] => pret tt
  | (n, p) :: c' =>
    bk_write (bk_of_blob p) FKey false ((n + 1) * bs) ;;;
    commit_key bs c'
  end.

(** Finalizing the commit: include/nudb/impl/basic_store.ipp:737-749. *)
Definition commit_end : prog (res unit) :=
  p_sync FDat ;;;
  p_sync FKey ;;;
  p_trunc FLog 0 ;;;
  p_sync FLog.

(** commit(), when ec_ is clear: include/nudb/impl/basic_store.ipp:580-755.  The
    intermediate publication of c1 to readers (lines 692-701) and the wait for
    readers (g_.finish(), line 728) only matter to concurrent calls and are
    modelled in Concurrent.v. *)
Definition commit (e : env) (s : store) : prog (res store) :=
  let kh := st_kh s in
  let p0 := st_p1 s in
  let p1 := st_p0 s in
  commit_begin e kh ;;;
  st <- commit_data e kh (st_thresh s) (st_frac s) (st_buckets s) (st_modulus s) (pl_map p0) ;;
  commit_log e (cs_c0 st) ;;;
  commit_key (kh_block_size kh) (e_iter e (cs_c1 st)) ;;;
  commit_end ;;;
  pret (Store kh pool_empty p1 [] (cs_frac st) (st_thresh s) (cs_buckets st) (cs_modulus st) None).

(** The store after a failed commit: ec_ and ecb_ are set and the batch is stuck
    in p0 (include/nudb/impl/basic_store.ipp:589,774-779).  The other members may
    have changed but are never used again because every function tests ecb_
    first. *)
Definition store_failed (s : store) (er : err) : store :=
  Store (st_kh s) (st_p1 s) (st_p0 s) (st_c1 s) (st_frac s) (st_thresh s)
    (st_buckets s) (st_modulus s) (Some er).

(** flush(): include/nudb/impl/basic_store.ipp:757-804.  With ec_ already set
    commit only swaps the pools: it stops at the first test of ec
    (basic_store.ipp:613-615). *)
Definition store_flush (e : env) (s : store) : prog store :=
  if pool_is_empty (st_p1 s) then Ret s
  else
    match st_ec s with
    | Some er => Ret (store_failed s er)
    | None =>
      bind (commit e s) (fun r =>
      match r with
      | Ok s' => Ret s'
      | Er er => Ret (store_failed s er)
      end)
    end.

(** close(): include/nudb/impl/basic_store.ipp:190-218. *)
Definition store_close (e : env) (s : store) : prog (res unit) :=
  bind (store_flush e s) (fun s =>
  match st_ec s with
  | Some er => pfail er
  | None => p_erase FLog
  end).
