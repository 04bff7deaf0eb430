(** File formats: include/nudb/detail/format.hpp. *)
From Verif Require Import Model.Bytes Model.Err Model.Field.

(** A hash function object [Hasher{salt}(key,size)]: seed, bytes -> 64 bits
    (the UniformRandomHash concept of doc/; include/nudb/xxhasher.hpp is one
    instance).  Universally quantified in the theorems. *)
Definition hasher := N -> bytes -> N.

(** currentVersion: include/nudb/detail/format.hpp:47. *)
Definition currentVersion : N := 2.

(** dat_file_header: include/nudb/detail/format.hpp:49-65. *)
Definition dat_hdr_size : N := 92.
Record dat_header := DatHeader {
  dh_type : bytes; dh_version : N; dh_uid : N; dh_appnum : N; dh_key_size : N }.

(** key_file_header: include/nudb/detail/format.hpp:67-98. *)
Definition key_hdr_size : N := 104.
Record key_header := KeyHeader {
  kh_type : bytes; kh_version : N; kh_uid : N; kh_appnum : N; kh_key_size : N;
  kh_salt : N; kh_pepper : N; kh_block_size : N; kh_load_factor : N;
  kh_capacity : N; kh_buckets : N; kh_modulus : N }.

(** log_file_header: include/nudb/detail/format.hpp:100-126. *)
Definition log_hdr_size : N := 62.
Record log_header := LogHeader {
  lh_type : bytes; lh_version : N; lh_uid : N; lh_appnum : N; lh_key_size : N;
  lh_salt : N; lh_pepper : N; lh_block_size : N;
  lh_key_file_size : N; lh_dat_file_size : N }.

(** make_hash<uint48_t>: include/nudb/detail/format.hpp:144-147. *)
Definition make_hash (h : N) : N := N.land (N.shiftr h 16) 281474976710655.

(** hash<Hasher>: include/nudb/detail/format.hpp:152-167. *)
Definition hash (H : hasher) (salt : N) (key : bytes) : N := make_hash (H salt key).

(** pepper<Hasher>: include/nudb/detail/format.hpp:171-178.  The result is a
    std::uint64_t. *)
Definition pepper (H : hasher) (salt : N) : N :=
  N.land (H salt (le64 salt)) 18446744073709551615.

(** bucket_size: include/nudb/detail/format.hpp:183-195. *)
Definition bucket_size (capacity : N) : N := 2 + 6 + capacity * (6 + 6 + 6).

(** bucket_capacity: include/nudb/detail/format.hpp:199-219. *)
Definition bucket_capacity (block_size : N) : N :=
  if (block_size <? key_hdr_size) || (block_size <? 2 + 6) then 0
  else (block_size - (2 + 6)) / (6 + 6 + 6).

(** value_size: include/nudb/detail/format.hpp:223-233. *)
Definition value_size (size key_size : N) : N := 6 + key_size + size.

(** ceil_pow2: include/nudb/detail/format.hpp:236-261.  One iteration of the
    loop, with the table entry [t] and the shift [j]. *)
Definition ceil_pow2_step (st : N * N) (tj : N * N) : N * N :=
  let '(x, y) := st in
  let '(t, j) := tj in
  let k := if N.land x t =? 0 then 0 else j in
  (N.shiftr x k, y + k).

(** The table of include/nudb/detail/format.hpp:240-247 with the values of j. *)
Definition ceil_pow2_table : list (N * N) :=
  [ (18446744069414584320, 32); (4294901760, 16); (65280, 8);
    (240, 4); (12, 2); (2, 1) ].

(** ceil_pow2: include/nudb/detail/format.hpp:236-261 ([1<<64] for arguments
    above 2^63 is undefined in C++; the model returns 2^64 there). *)
Definition ceil_pow2 (x : N) : N :=
  let y := if N.land x (x - 1) =? 0 then 0 else 1 in
  let '(_, y) := fold_left ceil_pow2_step ceil_pow2_table (x, y) in
  N.shiftl 1 y.

(** The magic strings "nudb.dat", "nudb.key", "nudb.log"
    (include/nudb/detail/format.hpp:297,375,443). *)
Definition magic_dat : bytes := [110; 117; 100; 98; 46; 100; 97; 116].
Definition magic_key : bytes := [110; 117; 100; 98; 46; 107; 101; 121].
Definition magic_log : bytes := [110; 117; 100; 98; 46; 108; 111; 103].

(** write(ostream, dat_file_header): include/nudb/detail/format.hpp:293-305. *)
Definition enc_dat_header (h : dat_header) : bytes :=
  magic_dat ++ wr16 (dh_version h) ++ wr64 (dh_uid h) ++ wr64 (dh_appnum h) ++
  wr16 (dh_key_size h) ++ zeros 64.

(** read(istream, dat_file_header): include/nudb/detail/format.hpp:266-277; the
    sequential reads of the stream are written with their offsets. *)
Definition dec_dat_header (b : bytes) : dat_header :=
  DatHeader (bsub 0 8 b) (rd16 (bsub 8 2 b)) (rd64 (bsub 10 8 b))
    (rd64 (bsub 18 8 b)) (rd16 (bsub 26 2 b)).

(** write(ostream, key_file_header): include/nudb/detail/format.hpp:371-387. *)
Definition enc_key_header (h : key_header) : bytes :=
  magic_key ++ wr16 (kh_version h) ++ wr64 (kh_uid h) ++ wr64 (kh_appnum h) ++
  wr16 (kh_key_size h) ++ wr64 (kh_salt h) ++ wr64 (kh_pepper h) ++
  wr16 (kh_block_size h) ++ wr16 (kh_load_factor h) ++ zeros 56.

(** Number of buckets computed from the size of the key file:
    include/nudb/detail/format.hpp:338-350. *)
Definition buckets_of_size (file_size block_size : N) : N :=
  if block_size <? file_size then
    if 0 <? block_size then (file_size - block_size) / block_size else 0
  else 0.

(** read(istream, file_size, key_file_header):
    include/nudb/detail/format.hpp:319-352. *)
Definition dec_key_header (b : bytes) (file_size : N) : key_header :=
  let bs := rd16 (bsub 44 2 b) in
  let bu := buckets_of_size file_size bs in
  KeyHeader (bsub 0 8 b) (rd16 (bsub 8 2 b)) (rd64 (bsub 10 8 b))
    (rd64 (bsub 18 8 b)) (rd16 (bsub 26 2 b)) (rd64 (bsub 28 8 b))
    (rd64 (bsub 36 8 b)) bs (rd16 (bsub 46 2 b))
    (bucket_capacity bs) bu (ceil_pow2 bu).

(** The block written by write(File, key_file_header):
    include/nudb/detail/format.hpp:389-406. *)
Definition enc_key_header_block (h : key_header) : bytes :=
  enc_key_header h ++ zeros (kh_block_size h - key_hdr_size).

(** write(ostream, log_file_header): include/nudb/detail/format.hpp:439-453. *)
Definition enc_log_header (h : log_header) : bytes :=
  magic_log ++ wr16 (lh_version h) ++ wr64 (lh_uid h) ++ wr64 (lh_appnum h) ++
  wr16 (lh_key_size h) ++ wr64 (lh_salt h) ++ wr64 (lh_pepper h) ++
  wr16 (lh_block_size h) ++ wr64 (lh_key_file_size h) ++ wr64 (lh_dat_file_size h).

(** read(istream, log_file_header): include/nudb/detail/format.hpp:409-423. *)
Definition dec_log_header (b : bytes) : log_header :=
  LogHeader (bsub 0 8 b) (rd16 (bsub 8 2 b)) (rd64 (bsub 10 8 b))
    (rd64 (bsub 18 8 b)) (rd16 (bsub 26 2 b)) (rd64 (bsub 28 8 b))
    (rd64 (bsub 36 8 b)) (rd16 (bsub 44 2 b)) (rd64 (bsub 46 8 b)) (rd64 (bsub 54 8 b)).

(** verify(dat_file_header): include/nudb/detail/format.hpp:467-487. *)
Definition verify_dat (h : dat_header) : res unit :=
  if negb (beq (dh_type h) magic_dat) then Er not_data_file
  else if negb (dh_version h =? currentVersion) then Er different_version
  else if dh_key_size h <? 1 then Er invalid_key_size
  else Ok tt.

(** verify<Hasher>(key_file_header): include/nudb/detail/format.hpp:490-530. *)
Definition verify_key (H : hasher) (h : key_header) : res unit :=
  if negb (beq (kh_type h) magic_key) then Er not_key_file
  else if negb (kh_version h =? currentVersion) then Er different_version
  else if kh_key_size h <? 1 then Er invalid_key_size
  else if negb (kh_pepper h =? pepper H (kh_salt h)) then Er hash_mismatch
  else if kh_load_factor h <? 1 then Er invalid_load_factor
  else if kh_capacity h <? 1 then Er invalid_capacity
  else if kh_buckets h <? 1 then Er invalid_bucket_count
  else Ok tt.

(** verify<Hasher>(log_file_header): include/nudb/detail/format.hpp:533-558. *)
Definition verify_log (H : hasher) (h : log_header) : res unit :=
  if negb (beq (lh_type h) magic_log) then Er not_log_file
  else if negb (lh_version h =? currentVersion) then Er different_version
  else if negb (lh_pepper h =? pepper H (lh_salt h)) then Er hash_mismatch
  else if lh_key_size h <? 1 then Er invalid_key_size
  else Ok tt.

(** verify<Hasher>(dat_file_header, key_file_header):
    include/nudb/detail/format.hpp:561-584. *)
Definition verify_dat_key (H : hasher) (dh : dat_header) (kh : key_header) : res unit :=
  rbind (verify_key H kh) (fun _ =>
  if negb (kh_uid kh =? dh_uid dh) then Er uid_mismatch
  else if negb (kh_appnum kh =? dh_appnum dh) then Er appnum_mismatch
  else if negb (kh_key_size kh =? dh_key_size dh) then Er key_size_mismatch
  else Ok tt).

(** verify<Hasher>(key_file_header, log_file_header):
    include/nudb/detail/format.hpp:587-625. *)
Definition verify_key_log (H : hasher) (kh : key_header) (lh : log_header) : res unit :=
  rbind (verify_log H lh) (fun _ =>
  if negb (kh_uid kh =? lh_uid lh) then Er uid_mismatch
  else if negb (kh_appnum kh =? lh_appnum lh) then Er appnum_mismatch
  else if negb (kh_key_size kh =? lh_key_size lh) then Er key_size_mismatch
  else if negb (kh_salt kh =? lh_salt lh) then Er salt_mismatch
  else if negb (kh_pepper kh =? lh_pepper lh) then Er pepper_mismatch
  else if negb (kh_block_size kh =? lh_block_size lh) then Er block_size_mismatch
  else Ok tt).
