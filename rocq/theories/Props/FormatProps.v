(** C11, C14, C15, C16, C28, C32, C37: formats, hashing, buckets, buffers, pool. *)
From Verif Require Import Model.Bytes Model.Err Model.Field Model.Format Model.IO Model.BulkIO
  Model.Bucket Model.Pool SpecFormat SpecBuffer Proofs.BytesFacts Proofs.FormatFacts Proofs.PoolProps.
From Coq Require Import Sorting.Sorted.

(** C11.  Every hash designates an existing bucket. *)
Theorem C11_index_in_range : forall h buckets,
  0 < buckets -> buckets < 2 ^ 63 ->
  bucket_index h buckets (ceil_pow2 buckets) < buckets.
Proof. exact index_in_range. Qed.

(** C11.  When the bucket count grows by one, with the modulus updated as commit
    does, a hash stays or moves from the bucket being split (the one commit picks,
    buckets - modulus/2) to the new bucket. *)
Theorem C11_growth_moves_one_bucket : forall h buckets,
  0 < buckets -> buckets < 2 ^ 63 ->
  let modulus := ceil_pow2 buckets in
  let modulus' := if buckets =? modulus then modulus * 2 else modulus in
  modulus' = ceil_pow2 (buckets + 1) /\
  (bucket_index h (buckets + 1) modulus' = bucket_index h buckets modulus \/
   (bucket_index h buckets modulus = buckets - modulus' / 2 /\
    bucket_index h (buckets + 1) modulus' = buckets)).
Proof. exact index_grow. Qed.

(** Both cases occur. *)
Example C11_example :
  bucket_index 17 6 8 = 1 /\ bucket_index 17 5 8 = 1 /\
  bucket_index 21 6 8 = 5 /\ bucket_index 21 5 8 = 1 /\ 5 - 8 / 2 = 1 /\ ceil_pow2 5 = 8.
Proof. vm_compute. repeat split. Qed.

(** C14.  Searching yields the number of entries with a smaller hash. *)
Theorem C14_search : forall bs b es spill h,
  104 <= bs -> is_bucket bs b es spill -> by_hash es ->
  bk_lower_bound b h = N.of_nat (below h es).
Proof. exact bucket_search. Qed.

(** C14.  Insertion puts the entry there, keeps order, the other entries, the
    spill offset and the length of the block. *)
Theorem C14_insert : forall bs b es spill o s h,
  104 <= bs <= 65535 -> is_bucket bs b es spill -> by_hash es ->
  N.of_nat (length es) < capacity bs -> o < 2 ^ 48 -> s < 2 ^ 32 -> h < 2 ^ 48 ->
  let es' := firstn (below h es) es ++ (o, s, h) :: skipn (below h es) es in
  exists b', bk_insert b o s h = Ok b' /\ is_bucket bs b' es' spill /\ by_hash es'.
Proof. exact bucket_insert. Qed.

(** C14.  Erasing removes exactly that entry. *)
Theorem C14_erase : forall bs b es spill i,
  104 <= bs -> is_bucket bs b es spill -> (i < length es)%nat ->
  is_bucket bs (bk_erase b (N.of_nat i)) (firstn i es ++ skipn (S i) es) spill.
Proof. exact bucket_erase. Qed.

(** C14.  Entry access reads the entry. *)
Theorem C14_at : forall bs b es spill i x,
  104 <= bs -> is_bucket bs b es spill -> nth_error es i = Some x ->
  bk_at b (N.of_nat i) = entry_of x.
Proof. exact bucket_at. Qed.

Definition sample_bucket : bucket :=
  bk_of_blob (bucket_image [(92, 5, 3); (105, 7, 9); (118, 2, 9)] 200 ++ zeros 42).

(** Duplicated hashes: the new entry goes before them. *)
Example C14_example :
  is_bucket 104 sample_bucket [(92, 5, 3); (105, 7, 9); (118, 2, 9)] 200 /\
  by_hash [(92, 5, 3); (105, 7, 9); (118, 2, 9)] /\
  bk_lower_bound sample_bucket 9 = 1 /\
  exists b', bk_insert sample_bucket 300 1 9 = Ok b' /\
    is_bucket 104 b' [(92, 5, 3); (300, 1, 9); (105, 7, 9); (118, 2, 9)] 200.
Proof.
  assert (H : is_bucket 104 sample_bucket [(92, 5, 3); (105, 7, 9); (118, 2, 9)] 200).
  { unfold is_bucket. splits.
    - vm_compute. reflexivity.
    - vm_compute. reflexivity.
    - exists (zeros 42). vm_compute. reflexivity.
    - vm_compute. reflexivity.
    - repeat constructor.
    - vm_compute. reflexivity.
    - vm_compute. discriminate. }
  assert (S : by_hash [(92, 5, 3); (105, 7, 9); (118, 2, 9)]).
  { unfold by_hash, hash_of. repeat constructor; simpl; lia. }
  split; [exact H|]. split; [exact S|]. split; [vm_compute; reflexivity|].
  assert (E : below 9 [(92, 5, 3); (105, 7, 9); (118, 2, 9)] = 1%nat) by (vm_compute; reflexivity).
  destruct (C14_insert 104 _ _ _ 300 1 9 ltac:(lia) H S eq_refl eq_refl eq_refl eq_refl)
    as (b' & Hb & Hi & _). rewrite E in Hi. exists b'. split; [exact Hb|exact Hi].
Qed.

(** C15.  Writing then reading a field gives the value back, and the bytes are
    the big-endian digits. *)
Theorem C15_field_roundtrip :
  (forall n, n < 2 ^ 16 -> wr16 n = be 2 n /\ rd16 (wr16 n) = n) /\
  (forall n, n < 2 ^ 24 -> wr24 n = be 3 n /\ rd24 (wr24 n) = n) /\
  (forall n, n < 2 ^ 32 -> wr32 n = be 4 n /\ rd32 (wr32 n) = n) /\
  (forall n, n < 2 ^ 48 -> wr48 n = be 6 n /\ rd48 (wr48 n) = n) /\
  (forall n, n < 2 ^ 32 -> wr48 n = be 6 n /\ rd_size48 (wr48 n) = n) /\
  (forall n, n < 2 ^ 64 -> wr64 n = be 8 n /\ rd64 (wr64 n) = n).
Proof. exact field_roundtrip. Qed.

(** C15.  Reading any bytes yields the number they denote. *)
Theorem C15_field_read : forall l, bytes_ok l ->
  (length l = 2%nat -> rd16 l = be_value l) /\ (length l = 3%nat -> rd24 l = be_value l) /\
  (length l = 4%nat -> rd32 l = be_value l) /\ (length l = 6%nat -> rd48 l = be_value l) /\
  (length l = 8%nat -> rd64 l = be_value l).
Proof. exact field_read. Qed.

Example C15_example :
  be 6 258 = [0; 0; 0; 0; 1; 2] /\ be_value [1; 2; 3] = 66051 /\ bytes_ok [1; 2; 3].
Proof. splits; try reflexivity. repeat constructor. Qed.

(** C16.  The three headers: image and round trip. *)
Theorem C16_dat_header : forall h,
  dh_version h < 2 ^ 16 -> dh_uid h < 2 ^ 64 -> dh_appnum h < 2 ^ 64 -> dh_key_size h < 2 ^ 16 ->
  enc_dat_header h = magic_dat ++ be 2 (dh_version h) ++ be 8 (dh_uid h) ++ be 8 (dh_appnum h) ++
    be 2 (dh_key_size h) ++ zeros 64 /\
  dec_dat_header (enc_dat_header h) =
    DatHeader magic_dat (dh_version h) (dh_uid h) (dh_appnum h) (dh_key_size h).
Proof. exact dat_header_roundtrip. Qed.

(** The derived values: capacity, number of buckets of a file of [buckets] + 1
    blocks, and modulus. *)
Theorem C16_key_header : forall h buckets,
  kh_version h < 2 ^ 16 -> kh_uid h < 2 ^ 64 -> kh_appnum h < 2 ^ 64 -> kh_key_size h < 2 ^ 16 ->
  kh_salt h < 2 ^ 64 -> kh_pepper h < 2 ^ 64 -> kh_load_factor h < 2 ^ 16 ->
  104 <= kh_block_size h < 2 ^ 16 ->
  enc_key_header h = magic_key ++ be 2 (kh_version h) ++ be 8 (kh_uid h) ++ be 8 (kh_appnum h) ++
    be 2 (kh_key_size h) ++ be 8 (kh_salt h) ++ be 8 (kh_pepper h) ++ be 2 (kh_block_size h) ++
    be 2 (kh_load_factor h) ++ zeros 56 /\
  dec_key_header (enc_key_header h) ((buckets + 1) * kh_block_size h) =
    KeyHeader magic_key (kh_version h) (kh_uid h) (kh_appnum h) (kh_key_size h) (kh_salt h)
      (kh_pepper h) (kh_block_size h) (kh_load_factor h) (capacity (kh_block_size h))
      buckets (ceil_pow2 buckets).
Proof. exact key_header_roundtrip. Qed.

Theorem C16_log_header : forall h,
  lh_version h < 2 ^ 16 -> lh_uid h < 2 ^ 64 -> lh_appnum h < 2 ^ 64 -> lh_key_size h < 2 ^ 16 ->
  lh_salt h < 2 ^ 64 -> lh_pepper h < 2 ^ 64 -> lh_block_size h < 2 ^ 16 ->
  lh_key_file_size h < 2 ^ 64 -> lh_dat_file_size h < 2 ^ 64 ->
  enc_log_header h = magic_log ++ be 2 (lh_version h) ++ be 8 (lh_uid h) ++ be 8 (lh_appnum h) ++
    be 2 (lh_key_size h) ++ be 8 (lh_salt h) ++ be 8 (lh_pepper h) ++ be 2 (lh_block_size h) ++
    be 8 (lh_key_file_size h) ++ be 8 (lh_dat_file_size h) /\
  dec_log_header (enc_log_header h) =
    LogHeader magic_log (lh_version h) (lh_uid h) (lh_appnum h) (lh_key_size h) (lh_salt h)
      (lh_pepper h) (lh_block_size h) (lh_key_file_size h) (lh_dat_file_size h).
Proof. exact log_header_roundtrip. Qed.

Example C16_example :
  dec_key_header (enc_key_header (KeyHeader [] 2 77 88 32 99 1234567 4096 32768 0 0 0)) (6 * 4096) =
  KeyHeader magic_key 2 77 88 32 99 1234567 4096 32768 227 5 8.
Proof. vm_compute. reflexivity. Qed.

(** C28.  A pool filled by inserts of distinct keys: find gives exactly the
    inserted pairs, the byte count is the sum, and enumeration is in ascending
    key order. *)
Theorem C28_pool_is_map : forall l,
  NoDup (map (fun x => snd (fst x)) l) ->
  let p := fold_left (fun p x => let '(h, k, d) := x in pool_insert p h k d) l pool_empty in
  (forall h k d, pool_find p k = Some (PElem h k d) <-> In (h, k, d) l) /\
  (forall k, pool_find p k = None <-> ~ In k (map (fun x => snd (fst x)) l)) /\
  pl_data_size p = fold_right (fun x n => blen (snd x) + n) 0 l /\
  StronglySorted (fun a b => blt (pe_key a) (pe_key b) = true) (pl_map p) /\
  Permutation (map (fun x => (pe_hash x, pe_key x, pe_data x)) (pl_map p)) l /\
  (pool_is_empty p = true <-> l = []).
Proof. exact pool_is_map. Qed.

Example C28_example :
  let l := [(5, [3; 1], [9]); (6, [1; 7], [8; 8]); (5, [2; 2], [7])] in
  NoDup (map (fun x => snd (fst x)) l) /\
  map pe_key (pl_map (fold_left (fun p x => let '(h, k, d) := x in pool_insert p h k d) l pool_empty))
  = [[1; 7]; [2; 2]; [3; 1]].
Proof.
  split; [|reflexivity]. repeat constructor; simpl; intuition discriminate.
Qed.

(** C32.  Reading pieces through the buffered reader. *)
Theorem C32_buffered_read : forall f c off last bufsize ns w,
  wget w f = Some c -> off <= last -> last <= blen c ->
  run (read_pieces (br_make f off last bufsize) ns) w =
  (w, if off + total ns <=? last then Ok (pieces off c ns) else Er short_read).
Proof. exact bulk_read. Qed.

(** C32.  Writing pieces through the buffered writer and flushing: the file is
    extended by the pieces; the offsets reported are the final positions. *)
Theorem C32_buffered_write : forall f c bufsize ds w,
  wget w f = Some c ->
  run (write_pieces f (blen c) bufsize ds) w =
  (wset w f (Some (c ++ concat ds)), Ok (positions (blen c) ds)).
Proof. exact bulk_write. Qed.

Example C32_example :
  let w := World (Some [1; 2; 3; 4; 5; 6; 7]) None None in
  run (read_pieces (br_make FDat 1 6 2) [1; 3; 1]) w = (w, Ok [[2]; [3; 4; 5]; [6]]) /\
  run (read_pieces (br_make FDat 1 6 2) [1; 3; 2]) w = (w, Er short_read) /\
  run (write_pieces FDat 7 4 [[8; 9]; [10]; [11; 12; 13; 14; 15]; [16]]) w =
  (World (Some [1; 2; 3; 4; 5; 6; 7; 8; 9; 10; 11; 12; 13; 14; 15; 16]) None None,
   Ok [7; 9; 10; 15]).
Proof. vm_compute. repeat split. Qed.

(** C37.  The modulus is the least power of two not below the bucket count. *)
Theorem C37_least_power_of_two : forall x, 0 < x -> x <= 2 ^ 63 ->
  exists k, ceil_pow2 x = 2 ^ k /\ x <= 2 ^ k /\ forall j, x <= 2 ^ j -> 2 ^ k <= 2 ^ j.
Proof. exact ceil_pow2_least. Qed.

Example C37_example : ceil_pow2 5 = 2 ^ 3 /\ ceil_pow2 (2 ^ 62 + 1) = 2 ^ 63 /\ ceil_pow2 8 = 8.
Proof. vm_compute. repeat split. Qed.

Print Assumptions C11_index_in_range.
Print Assumptions C11_growth_moves_one_bucket.
Print Assumptions C14_search.
Print Assumptions C14_insert.
Print Assumptions C14_erase.
Print Assumptions C14_at.
Print Assumptions C15_field_roundtrip.
Print Assumptions C15_field_read.
Print Assumptions C16_dat_header.
Print Assumptions C16_key_header.
Print Assumptions C16_log_header.
Print Assumptions C28_pool_is_map.
Print Assumptions C32_buffered_read.
Print Assumptions C32_buffered_write.
Print Assumptions C37_least_power_of_two.
