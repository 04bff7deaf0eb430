(** Memory accesses of an open store.  The functions of Bucket.v and Store.v once
    more, with every access to the memory of a bucket checked: one outside the
    bucket's block gives EUB.  Nothing is assumed about what files contain: reads
    may be answered with any bytes. *)
From Verif Require Import Model.Bytes Model.Err Model.Field Model.Format Model.IO
  Model.BulkIO Model.Bucket Model.Pool Model.Recover Model.Store.

(** What an operation of the File concept (include/nudb/concepts.hpp:60-115) may
    answer, whatever is in the files: reads that succeed give as many bytes as
    wanted; the errors are not those the model uses for other purposes. *)
Definition plausible (o : io) (r : rsp) : Prop :=
  match r with
  | RErr er => match er with EUB | EAssert | EThrow | EDiverge => False | _ => True end
  | ROk _ d => match o with IoRead _ _ len => blen d = len /\ bytes_ok d | _ => True end
  end.

(** [p] may end with [a]. *)
Inductive yields {A} : prog A -> A -> Prop :=
| yields_ret a : yields (Ret a) a
| yields_do o k r a : plausible o r -> yields (k r) a -> yields (Do o k) a.

(** The bytes [off .. off+len) are in the block of [b]. *)
Definition within (b : bucket) (off len : N) : bool := off + len <=? bk_bs b.
Definition need {A} (c : bool) (x : res A) : res A := if c then x else Er EUB.

(** Constructor from a blob: include/nudb/detail/bucket.hpp:183-193 reads the
    first 8 bytes. *)
Definition ck_of_blob (p : bytes) : res bucket :=
  need (8 <=? blen p) (Ok (bk_of_blob p)).

(** update(): include/nudb/detail/bucket.hpp:425-434. *)
Definition ck_update (b : bucket) : res bucket :=
  need (within b 0 8) (Ok (bk_update b)).

(** spill(offset): include/nudb/detail/bucket.hpp:206-213. *)
Definition ck_set_spill (b : bucket) (off : N) : res bucket :=
  ck_update (Bucket (bk_size b) off (bk_blob b)).

(** at(i): include/nudb/detail/bucket.hpp:224-249. *)
Definition ck_at (b : bucket) (i : N) : res entry :=
  need (within b (8 + i * 18) 18) (Ok (bk_at b i)).

(** lower_bound(h): include/nudb/detail/bucket.hpp:251-288. *)
Fixpoint ck_lb_loop (fuel : nat) (b : bucket) (h first count : N) : res N :=
  match fuel with
  | O => Ok first
  | S fuel' =>
    if count =? 0 then Ok first
    else
      let step := count / 2 in
      let i := first + step in
      need (within b (20 + i * 18) 6)
        (if bk_hash_at b i <? h
         then ck_lb_loop fuel' b h (i + 1) (count - (step + 1))
         else ck_lb_loop fuel' b h first step)
  end.
Definition ck_lower_bound (b : bucket) (h : N) : res N :=
  ck_lb_loop (S (N.size_nat (bk_size b))) b h 0 (bk_size b).

(** insert(offset, size, h): include/nudb/detail/bucket.hpp:290-321.  The number
    of bytes moved, (size_ - i) * w, is unsigned, so i must not exceed size_. *)
Definition ck_insert (b : bucket) (off size h : N) : res bucket :=
  rbind (ck_lower_bound b h) (fun i =>
  need (i <=? bk_size b)
  (need (within b (8 + i * 18) ((bk_size b - i) * 18))
  (need (within b (8 + (i + 1) * 18) ((bk_size b - i) * 18))
  (need (within b 0 8)
  (need (within b (8 + i * 18) 18)
  (if (281474976710655 <? off) || (281474976710655 <? size) then Er EAssert
   else
     let blob := bk_blob b in
     let blob := bwrite (8 + (i + 1) * 18)
                   (bsub (8 + i * 18) ((bk_size b - i) * 18) blob) blob in
     let b := bk_update (Bucket (bk_size b + 1) (bk_spill b) blob) in
     Ok (Bucket (bk_size b) (bk_spill b)
           (bwrite (8 + i * 18) (enc_entry (Entry off size h)) (bk_blob b))))))))).

(** erase(i): include/nudb/detail/bucket.hpp:323-344.  --size_ must not wrap. *)
Definition ck_erase (b : bucket) (i : N) : res bucket :=
  let size := bk_size b - 1 in
  need (negb (bk_size b =? 0))
  (need (if i <? size
         then within b (8 + i * 18) ((size - i) * 18) && within b (8 + (i + 1) * 18) ((size - i) * 18)
         else true)
  (need (within b (8 + size * 18) 18)
  (need (within b 0 8) (Ok (bk_erase b i))))).

(** read(File, offset): include/nudb/detail/bucket.hpp:346-365. *)
Definition ck_read (p : bytes) (f : fname) (off : N) : prog (res bucket) :=
  let cap := bucket_capacity (blen p) in
  if blen p <? bucket_size cap then pfail EUB
  else
    d <- p_read f off (bucket_size cap) ;;
    b <- plift (ck_of_blob (bwrite 0 d p)) ;;
    if cap <? bk_size b then pfail invalid_bucket_size else pret b.

(** write(ostream): include/nudb/detail/bucket.hpp:396-406. *)
Definition ck_compact (b : bucket) : res bytes :=
  need (within b 0 (bk_actual b)) (Ok (bk_compact b)).

(** write(File, offset): include/nudb/detail/bucket.hpp:408-423.  The number of
    bytes cleared, block_size_ - size, is unsigned. *)
Definition ck_write (b : bucket) (f : fname) (ap : bool) (off : N) : prog (res unit) :=
  if bk_bs b <? bk_actual b then pfail EUB else bk_write b f ap off.

(** maybe_spill: include/nudb/detail/bucket.hpp:443-468. *)
Definition ck_maybe_spill (b : bucket) (w : bwriter) : prog (res (bucket * bwriter)) :=
  if bk_full b then
    let offset := bw_offset w in
    c <- plift (ck_compact b) ;;
    w <- bw_put w (wr48 0 ++ wr16 (bk_actual b) ++ c) ;;
    let spill := offset + 8 in
    if 281474976710655 <? spill then pfail EAssert
    else
      b <- plift (ck_set_spill (bk_empty (bk_bs b)) spill) ;;
      pret (b, w)
  else pret (b, w).

(** cache_t::insert: include/nudb/detail/cache.hpp:207-218. *)
Definition ck_cache_blob (e : env) (b : bucket) : res bytes :=
  rbind (ck_compact b) (fun c => Ok (bwrite 0 c (fresh e (bk_bs b)))).

(** fetch in a loaded bucket: include/nudb/impl/basic_store.ipp:356-408. *)
Fixpoint ck_fetch_scan (fuel : nat) (ks h : N) (key : bytes) (b : bucket) (i : N)
  : prog (res (option bytes)) :=
  match fuel with
  | O => pret None
  | S fuel' =>
    item <- plift (ck_at b i) ;;
    if negb (en_hash item =? h) then pret None
    else
      d <- p_read FDat (en_off item + 6) (ks + en_size item) ;;
      if beq (btake ks d) key then pret (Some (bdrop ks d))
      else ck_fetch_scan fuel' ks h key b (i + 1)
  end.

Definition ck_fetch_step (e : env) (kh : key_header) (h : N) (key : bytes) (b : bucket)
  : prog (bucket + res bytes) :=
  bind (i <- plift (ck_lower_bound b h) ;;
        ck_fetch_scan (N.to_nat (bk_size b - i)) (kh_key_size kh) h key b i) (fun r =>
  match r with
  | Er er => Ret (inr (Er er))
  | Ok (Some v) => Ret (inr (Ok v))
  | Ok None =>
    if bk_spill b =? 0 then Ret (inr (Er key_not_found))
    else
      bind (ck_read (fresh e (kh_block_size kh)) FDat (bk_spill b)) (fun r =>
      match r with
      | Er er => Ret (inr (Er er))
      | Ok b' => Ret (inl b')
      end)
  end).

Definition ck_fetch_bucket (e : env) (kh : key_header) (h : N) (key : bytes) (b : bucket)
  : prog (res bytes) := loop (ck_fetch_step e kh h key) b.

(** fetch(): include/nudb/impl/basic_store.ipp:220-264. *)
Definition ck_store_fetch (e : env) (s : store) (key : bytes) : prog (res bytes) :=
  match st_ec s with
  | Some er => pfail er
  | None =>
    let kh := st_kh s in
    let h := hash (e_hasher e) (kh_salt kh) key in
    match pool_find (st_p1 s) key with
    | Some x => pret (pe_data x)
    | None =>
      match pool_find (st_p0 s) key with
      | Some x => pret (pe_data x)
      | None =>
        let n := bucket_index h (st_buckets s) (st_modulus s) in
        b <- match cache_find (st_c1 s) n with
             | Some p => plift (ck_of_blob p)
             | None => ck_read (fresh e (kh_block_size kh)) FKey ((n + 1) * kh_block_size kh)
             end ;;
        ck_fetch_bucket e kh h key b
      end
    end
  end.

(** exists(): include/nudb/impl/basic_store.ipp:410-454. *)
Fixpoint ck_exists_scan (fuel : nat) (ks h : N) (key : bytes) (b : bucket) (i : N)
  : prog (res bool) :=
  match fuel with
  | O => pret false
  | S fuel' =>
    item <- plift (ck_at b i) ;;
    if negb (en_hash item =? h) then pret false
    else
      d <- p_read FDat (en_off item + 6) ks ;;
      if beq d key then pret true
      else ck_exists_scan fuel' ks h key b (i + 1)
  end.

Definition ck_exists_step (e : env) (kh : key_header) (h : N) (key : bytes) (b : bucket)
  : prog (bucket + res bool) :=
  bind (i <- plift (ck_lower_bound b h) ;;
        ck_exists_scan (N.to_nat (bk_size b - i)) (kh_key_size kh) h key b i) (fun r =>
  match r with
  | Er er => Ret (inr (Er er))
  | Ok true => Ret (inr (Ok true))
  | Ok false =>
    if bk_spill b =? 0 then Ret (inr (Ok false))
    else
      bind (ck_read (fresh e (kh_block_size kh)) FDat (bk_spill b)) (fun r =>
      match r with
      | Er er => Ret (inr (Er er))
      | Ok b' => Ret (inl b')
      end)
  end).

Definition ck_exists_bucket (e : env) (kh : key_header) (h : N) (key : bytes) (b : bucket)
  : prog (res bool) := loop (ck_exists_step e kh h key) b.

(** insert(): include/nudb/impl/basic_store.ipp:266-354. *)
Definition ck_store_insert (e : env) (s : store) (key data : bytes) : prog (res store) :=
  match st_ec s with
  | Some er => pfail er
  | None =>
    if (blen data =? 0) || (4294967295 <? blen data) then pfail EAssert
    else
    let kh := st_kh s in
    let h := hash (e_hasher e) (kh_salt kh) key in
    match pool_find (st_p1 s) key, pool_find (st_p0 s) key with
    | None, None =>
      let n := bucket_index h (st_buckets s) (st_modulus s) in
      found <-
        (b <- match cache_find (st_c1 s) n with
              | Some p => plift (ck_of_blob p)
              | None => ck_read (fresh e (kh_block_size kh)) FKey ((n + 1) * kh_block_size kh)
              end ;;
         ck_exists_bucket e kh h key b) ;;
      if (found : bool) then pfail key_exists
      else
        pret (Store kh (st_p0 s) (pool_insert (st_p1 s) h key data) (st_c1 s)
                (st_frac s) (st_thresh s) (st_buckets s) (st_modulus s) None)
    | _, _ => pfail key_exists
    end
  end.

(** split(): include/nudb/impl/basic_store.ipp:473-552. *)
Fixpoint ck_split_own (fuel : nat) (n2 buckets modulus : N) (b1 b2 : bucket) (i : N)
  : res (bucket * bucket) :=
  match fuel with
  | O => Ok (b1, b2)
  | S fuel' =>
    rbind (ck_at b1 i) (fun en =>
    if bucket_index (en_hash en) buckets modulus =? n2 then
      rbind (ck_insert b2 (en_off en) (en_size en) (en_hash en)) (fun b2 =>
      rbind (ck_erase b1 i) (fun b1 =>
      ck_split_own fuel' n2 buckets modulus b1 b2 i))
    else ck_split_own fuel' n2 buckets modulus b1 b2 (i + 1))
  end.

Fixpoint ck_split_spill (fuel : nat) (n2 buckets modulus : N) (tmp : bucket) (i : N)
    (b1 b2 : bucket) (w : bwriter) : prog (res (bucket * bucket * bwriter)) :=
  match fuel with
  | O => pret (b1, b2, w)
  | S fuel' =>
    en <- plift (ck_at tmp i) ;;
    if bucket_index (en_hash en) buckets modulus =? n2 then
      '(b2, w) <- ck_maybe_spill b2 w ;;
      b2 <- plift (ck_insert b2 (en_off en) (en_size en) (en_hash en)) ;;
      ck_split_spill fuel' n2 buckets modulus tmp (i + 1) b1 b2 w
    else
      '(b1, w) <- ck_maybe_spill b1 w ;;
      b1 <- plift (ck_insert b1 (en_off en) (en_size en) (en_hash en)) ;;
      ck_split_spill fuel' n2 buckets modulus tmp (i + 1) b1 b2 w
  end.

Definition ck_split_step (e : env) (kh : key_header) (n2 buckets modulus : N)
    (st : N * bucket * bucket * bwriter)
  : prog ((N * bucket * bucket * bwriter) + res (bucket * bucket * bwriter)) :=
  let '(spill, b1, b2, w) := st in
  bind (
    w <- (if bw_offset w - bw_size w <? spill + bucket_size (kh_capacity kh)
          then bw_flush w else pret w) ;;
    tmp <- ck_read (fresh e (kh_block_size kh)) FDat spill ;;
    '(b1, b2, w) <- ck_split_spill (N.to_nat (bk_size tmp)) n2 buckets modulus tmp 0 b1 b2 w ;;
    pret (bk_spill tmp, b1, b2, w)) (fun r =>
  match r with
  | Er er => Ret (inr (Er er))
  | Ok (spill', b1', b2', w') =>
    if spill' =? 0 then Ret (inr (Ok (b1', b2', w'))) else Ret (inl (spill', b1', b2', w'))
  end).

Definition ck_split (e : env) (kh : key_header) (b1 b2 : bucket) (n2 buckets modulus : N)
    (w : bwriter) : prog (res (bucket * bucket * bwriter)) :=
  if bk_size b1 =? 0 then pret (b1, b2, w)
  else
    '(b1, b2) <- plift (ck_split_own (N.to_nat (bk_size b1)) n2 buckets modulus b1 b2 0) ;;
    let spill := bk_spill b1 in
    if spill =? 0 then pret (b1, b2, w)
    else
      b1 <- plift (ck_set_spill b1 0) ;;
      loop (ck_split_step e kh n2 buckets modulus) (spill, b1, b2, w).

(** load(): include/nudb/impl/basic_store.ipp:554-578. *)
Definition ck_load (e : env) (kh : key_header) (n : N) (c0 c1 : cache)
  : prog (res (bucket * cache * cache)) :=
  match cache_find c1 n with
  | Some p => b <- plift (ck_of_blob p) ;; pret (b, c0, c1)
  | None =>
    match cache_find c0 n with
    | Some p =>
      b <- plift (ck_of_blob p) ;;
      q <- plift (ck_cache_blob e b) ;;
      b <- plift (ck_of_blob q) ;;
      pret (b, c0, cache_set c1 n q)
    | None =>
      tmp <- ck_read (fresh e (kh_block_size kh)) FKey ((n + 1) * kh_block_size kh) ;;
      q <- plift (ck_cache_blob e tmp) ;;
      b <- plift (ck_of_blob q) ;;
      pret (b, cache_set c0 n q, cache_set c1 n q)
    end
  end.

(** commit(): include/nudb/impl/basic_store.ipp:580-755, the parts that use
    buckets. *)
Definition ck_commit_split (e : env) (kh : key_header) (thresh : N) (st : cstate)
  : prog (res cstate) :=
  let frac := cs_frac st + 65536 in
  if thresh <=? frac then
    let frac := frac - thresh in
    let modulus := if cs_buckets st =? cs_modulus st then cs_modulus st * 2 else cs_modulus st in
    let n1 := cs_buckets st - modulus / 2 in
    let n2 := cs_buckets st in
    let buckets := cs_buckets st + 1 in
    '(b1, c0, c1) <- ck_load e kh n1 (cs_c0 st) (cs_c1 st) ;;
    let b2 := bk_empty (kh_block_size kh) in
    '(b1, b2, w) <- ck_split e kh b1 b2 n2 buckets modulus (cs_w st) ;;
    let c1 := cache_set (cache_set c1 n1 (bk_blob b1)) n2 (bk_blob b2) in
    pret (CState c0 c1 buckets modulus frac w)
  else pret (CState (cs_c0 st) (cs_c1 st) (cs_buckets st) (cs_modulus st) frac (cs_w st)).

Definition ck_commit_insert (e : env) (kh : key_header) (thresh : N) (xo : pelem * N)
    (st : cstate) : prog (res cstate) :=
  let '(x, off) := xo in
  st <- ck_commit_split e kh thresh st ;;
  let n := bucket_index (pe_hash x) (cs_buckets st) (cs_modulus st) in
  '(b, c0, c1) <- ck_load e kh n (cs_c0 st) (cs_c1 st) ;;
  '(b, w) <- ck_maybe_spill b (cs_w st) ;;
  b <- plift (ck_insert b off (blen (pe_data x)) (pe_hash x)) ;;
  pret (CState c0 (cache_set c1 n (bk_blob b)) (cs_buckets st) (cs_modulus st) (cs_frac st) w).

Fixpoint ck_commit_inserts (e : env) (kh : key_header) (thresh : N) (l : list (pelem * N))
    (st : cstate) : prog (res cstate) :=
  match l with
  | [] => pret st
  | xo :: l' =>
    st <- ck_commit_insert e kh thresh xo st ;;
    ck_commit_inserts e kh thresh l' st
  end.

Definition ck_commit_data (e : env) (kh : key_header) (thresh frac buckets modulus : N)
    (p0 : list pelem) : prog (res cstate) :=
  size <- p_size FDat ;;
  let w := bw_make FDat true size dataWriteSize in
  '(l, w) <- commit_records p0 w ;;
  st <- ck_commit_inserts e kh thresh l (CState [] [] buckets modulus frac w) ;;
  w <- bw_flush (cs_w st) ;;
  pret (CState (cs_c0 st) (cs_c1 st) (cs_buckets st) (cs_modulus st) (cs_frac st) w).

Fixpoint ck_commit_log_records (c : cache) (w : bwriter) : prog (res bwriter) :=
  match c with
  | [] => pret w
  | nb :: c' =>
    b <- plift (ck_of_blob (snd nb)) ;;
    d <- plift (ck_compact b) ;;
    w <- bw_put w (wr64 (fst nb) ++ d) ;;
    ck_commit_log_records c' w
  end.

Definition ck_commit_log (e : env) (c0 : cache) : prog (res unit) :=
  size <- p_size FLog ;;
  let w := bw_make FLog true size logWriteSize in
  w <- ck_commit_log_records (e_iter e c0) w ;;
  bw_flush w ;;;
  p_sync FLog.

Fixpoint ck_commit_key (bs : N) (c : cache) : prog (res unit) :=
  match c with
  | [] => pret tt
  | (n, p) :: c' =>
    b <- plift (ck_of_blob p) ;;
    ck_write b FKey false ((n + 1) * bs) ;;;
    ck_commit_key bs c'
  end.

Definition ck_commit (e : env) (s : store) : prog (res store) :=
  let kh := st_kh s in
  let p0 := st_p1 s in
  let p1 := st_p0 s in
  commit_begin e kh ;;;
  st <- ck_commit_data e kh (st_thresh s) (st_frac s) (st_buckets s) (st_modulus s) (pl_map p0) ;;
  ck_commit_log e (cs_c0 st) ;;;
  ck_commit_key (kh_block_size kh) (e_iter e (cs_c1 st)) ;;;
  commit_end ;;;
  pret (Store kh pool_empty p1 [] (cs_frac st) (st_thresh s) (cs_buckets st) (cs_modulus st) None).

(** flush(): include/nudb/impl/basic_store.ipp:757-804. *)
Definition ck_store_flush (e : env) (s : store) : prog store :=
  if pool_is_empty (st_p1 s) then Ret s
  else
    match st_ec s with
    | Some er => Ret (store_failed s er)
    | None =>
      bind (ck_commit e s) (fun r =>
      match r with
      | Ok s' => Ret s'
      | Er er => Ret (store_failed s er)
      end)
    end.

(** Stores an application may come to hold: opened on any files, then any calls. *)
Inductive reached (e : env) : store -> Prop :=
| reached_open s : yields (store_open e) (Ok s) -> reached e s
| reached_insert s k v s' : reached e s -> yields (ck_store_insert e s k v) (Ok s') -> reached e s'
| reached_flush s s' : reached e s -> yields (ck_store_flush e s) s' -> reached e s'.
