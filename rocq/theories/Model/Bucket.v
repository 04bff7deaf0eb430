(** Buckets: include/nudb/detail/bucket.hpp. *)
From Coq Require Export Permutation.
From Verif Require Import Model.Bytes Model.Err Model.Field Model.Format Model.IO Model.BulkIO.

(** Everything the environment chooses: the hash function, the iteration order
    of std::unordered_map (include/nudb/detail/cache.hpp:55), and the contents
    of freshly allocated, uninitialised memory. *)
Record env := Env {
  e_hasher : hasher;
  e_iter : list (N * bytes) -> list (N * bytes);
  e_junk : bytes }.

(** std::unordered_map enumerates every element exactly once, in some order. *)
Definition iter_ok (e : env) : Prop := forall c, Permutation c (e_iter e c).

(** A block of [n] bytes of uninitialised memory
    (include/nudb/detail/buffer.hpp:57-64, arena.hpp:255-279). *)
Definition fresh (e : env) (n : N) : bytes := btake n (e_junk e ++ zeros n).

(** bucket_index: include/nudb/detail/bucket.hpp:26-35 (the BOOST_ASSERT that
    the modulus is at most 2^32 is not modelled: the model has no such limit). *)
Definition bucket_index (h buckets modulus : N) : N :=
  let n := h mod modulus in
  if buckets <=? n then n - modulus / 2 else n.

(** bucket_t: include/nudb/detail/bucket.hpp:48-54.  [bk_blob] is the memory
    p_[0 .. block_size_); block_size_ is its length. *)
Record bucket := Bucket { bk_size : N; bk_spill : N; bk_blob : bytes }.

(** bucket_t::value_type: include/nudb/detail/bucket.hpp:57-62. *)
Record entry := Entry { en_off : N; en_size : N; en_hash : N }.

(** Constructor from a blob: include/nudb/detail/bucket.hpp:183-193. *)
Definition bk_of_blob (p : bytes) : bucket :=
  Bucket (rd16 (bsub 0 2 p)) (rd48 (bsub 2 6 p)) p.

(** clear() and the empty constructor: include/nudb/detail/bucket.hpp:195-222. *)
Definition bk_empty (block_size : N) : bucket := Bucket 0 0 (zeros block_size).

(** block_size(): include/nudb/detail/bucket.hpp:72-76. *)
Definition bk_bs (b : bucket) : N := blen (bk_blob b).

(** actual_size(): include/nudb/detail/bucket.hpp:80-84. *)
Definition bk_actual (b : bucket) : N := bucket_size (bk_size b).

(** full(): include/nudb/detail/bucket.hpp:92-97. *)
Definition bk_full (b : bucket) : bool := bucket_capacity (bk_bs b) <=? bk_size b.

(** update(): include/nudb/detail/bucket.hpp:425-434. *)
Definition bk_update (b : bucket) : bucket :=
  Bucket (bk_size b) (bk_spill b)
    (bwrite 0 (wr16 (bk_size b) ++ wr48 (bk_spill b)) (bk_blob b)).

(** spill(offset): include/nudb/detail/bucket.hpp:206-213. *)
Definition bk_set_spill (b : bucket) (off : N) : bucket :=
  bk_update (Bucket (bk_size b) off (bk_blob b)).

(** at(i): include/nudb/detail/bucket.hpp:224-249 (in bounds whenever
    i < size_ <= capacity, which read() establishes). *)
Definition bk_at (b : bucket) (i : N) : entry :=
  let p := bsub (8 + i * 18) 18 (bk_blob b) in
  Entry (rd48 (bsub 0 6 p)) (rd_size48 (bsub 6 6 p)) (rd48 (bsub 12 6 p)).

(** The hash read inside lower_bound: include/nudb/detail/bucket.hpp:262-276. *)
Definition bk_hash_at (b : bucket) (i : N) : N :=
  rd48 (bsub (20 + i * 18) 6 (bk_blob b)).

(** The while loop of lower_bound: include/nudb/detail/bucket.hpp:270-286.
    [fuel] is the number of binary digits of count plus one, always enough
    (lemma lb_loop_eq). *)
Fixpoint lb_loop (fuel : nat) (b : bucket) (h first count : N) : N :=
  match fuel with
  | O => first
  | S fuel' =>
    if count =? 0 then first
    else
      let step := count / 2 in
      let i := first + step in
      if bk_hash_at b i <? h
      then lb_loop fuel' b h (i + 1) (count - (step + 1))
      else lb_loop fuel' b h first step
  end.

(** lower_bound(h): include/nudb/detail/bucket.hpp:251-288. *)
Definition bk_lower_bound (b : bucket) (h : N) : N :=
  lb_loop (S (N.size_nat (bk_size b))) b h 0 (bk_size b).

(** Image of one entry: include/nudb/detail/bucket.hpp:313-320. *)
Definition enc_entry (en : entry) : bytes :=
  wr48 (en_off en) ++ wr48 (en_size en) ++ wr48 (en_hash en).

(** insert(offset, size, h): include/nudb/detail/bucket.hpp:290-321.  Writing
    beyond the block is undefined behaviour; offsets and sizes beyond 48 bits
    fail the BOOST_ASSERT of write<uint48_t> (field.hpp:234). *)
Definition bk_insert (b : bucket) (off size h : N) : res bucket :=
  if bk_bs b <? 8 + (bk_size b + 1) * 18 then Er EUB
  else if (281474976710655 <? off) || (281474976710655 <? size) then Er EAssert
  else
    let i := bk_lower_bound b h in
    let blob := bk_blob b in
    let blob := bwrite (8 + (i + 1) * 18)
                  (bsub (8 + i * 18) ((bk_size b - i) * 18) blob) blob in
    let b := bk_update (Bucket (bk_size b + 1) (bk_spill b) blob) in
    Ok (Bucket (bk_size b) (bk_spill b)
          (bwrite (8 + i * 18) (enc_entry (Entry off size h)) (bk_blob b))).

(** erase(i): include/nudb/detail/bucket.hpp:323-344. *)
Definition bk_erase (b : bucket) (i : N) : bucket :=
  let size := bk_size b - 1 in
  let blob := bk_blob b in
  let blob :=
    if i <? size
    then bwrite (8 + i * 18) (bsub (8 + (i + 1) * 18) ((size - i) * 18) blob) blob
    else blob in
  let blob := bwrite (8 + size * 18) (zeros 18) blob in
  bk_update (Bucket size (bk_spill b) blob).

(** read(File, offset): include/nudb/detail/bucket.hpp:346-365, into the memory
    block [p]. *)
Definition bk_read (p : bytes) (f : fname) (off : N) : prog (res bucket) :=
  let cap := bucket_capacity (blen p) in
  d <- p_read f off (bucket_size cap) ;;
  let b := bk_of_blob (bwrite 0 d p) in
  if cap <? bk_size b then pfail invalid_bucket_size else pret b.

(** read(bulk_reader): include/nudb/detail/bucket.hpp:367-394.  Returns the
    bucket as it is left in memory also when a read fails, since a caller
    (recover) goes on using it.  Copying more entries than the block holds is
    undefined behaviour. *)
Definition bk_read_bulk (b : bucket) (r : breader) : prog (bucket * res breader) :=
  bind (br_prepare r 8) (fun a =>
  match a with
  | Er e => Ret (b, Er e)
  | Ok (is, r) =>
    let size := rd16 (bsub 0 2 is) in
    let spill := rd48 (bsub 2 6 is) in
    let b := bk_update (Bucket size spill (bk_blob b)) in
    let w := size * 18 in
    bind (br_prepare r w) (fun a =>
    match a with
    | Er e => Ret (b, Er e)
    | Ok (is, r) =>
      if bk_bs b <? 8 + w then Ret (b, Er EUB)
      else Ret (Bucket size spill (bwrite 8 is (bk_blob b)), Ok r)
    end)
  end).

(** write(ostream): include/nudb/detail/bucket.hpp:396-406. *)
Definition bk_compact (b : bucket) : bytes := btake (bk_actual b) (bk_blob b).

(** The block written by write(File, offset): include/nudb/detail/bucket.hpp:408-423. *)
Definition bk_padded (b : bucket) : bytes :=
  bwrite (bk_actual b) (zeros (bk_bs b - bk_actual b)) (bk_blob b).

(** write(File, offset): include/nudb/detail/bucket.hpp:408-423. *)
Definition bk_write (b : bucket) (f : fname) (ap : bool) (off : N) : prog (res unit) :=
  p_write f ap off (bk_padded b).

(** maybe_spill: include/nudb/detail/bucket.hpp:443-468.  Setting a spill offset
    beyond 48 bits fails the BOOST_ASSERT of write<uint48_t>. *)
Definition maybe_spill (b : bucket) (w : bwriter) : prog (res (bucket * bwriter)) :=
  if bk_full b then
    let offset := bw_offset w in
    w <- bw_put w (wr48 0 ++ wr16 (bk_actual b) ++ bk_compact b) ;;
    let spill := offset + 8 in
    if 281474976710655 <? spill then pfail EAssert
    else pret (bk_set_spill (bk_empty (bk_bs b)) spill, w)
  else pret (b, w).
