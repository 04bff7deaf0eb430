(** Specification of verify(): the true statistics of a database. *)
From Verif Require Import Model.Bytes Model.IO Model.Verify Model.Events SpecFormat SpecHeader SpecDisk SpecVisit.

Fixpoint total (l : list N) : N :=
  match l with [] => 0 | x :: l => x + total l end.
Fixpoint count {A} (f : A -> bool) (l : list A) : N :=
  match l with [] => 0 | x :: l => (if f x then 1 else 0) + count f l end.
Definition is_spill (r : record) : bool := match r with Spill _ => true | Value _ _ => false end.

(** [n] spill records follow each other from offset [off] of the data file: the
    bucket at [off] has the offset of the next one in its bytes 2 to 7, and 0 ends
    the chain. *)
Inductive spill_links (dat : bytes) : N -> N -> Prop :=
| links_end : spill_links dat 0 0
| links_more off n : off <> 0 -> off + 8 <= blen dat ->
    spill_links dat (be_value (bsub (off + 2) 6 dat)) n -> spill_links dat off (n + 1).

(** The number of spill records of every bucket of a key file of [B] buckets. *)
Definition chain_lengths (bs B : N) (dat key : bytes) (lens : list N) : Prop :=
  blen lens = B /\
  forall n, n < B -> spill_links dat (be_value (bsub ((n + 1) * bs + 2) 6 key)) (nthN lens n 0).

(** The statistics: number of values and of bytes in them, number of spill records in
    the file and of those in use, and bytes of both; element i of the histogram is
    the number of buckets with i spill records, the last element that of buckets
    with 9 or more. *)
Record stats := Stats {
  s_values : N; s_value_bytes : N;
  s_spills : N; s_spill_bytes : N;
  s_spills_used : N; s_spill_bytes_used : N;
  s_hist : list N }.

Definition true_stats (bs : N) (rs : list record) (lens : list N) : stats :=
  Stats (blen (values rs)) (total (map (fun x => blen (snd x)) (values rs)))
    (count is_spill rs) (count is_spill rs * (8 + (8 + 18 * capacity bs)))
    (total lens) (total lens * (8 + (8 + 18 * capacity bs)))
    (map (fun i => count (fun n => N.min n 9 =? i) lens) [0; 1; 2; 3; 4; 5; 6; 7; 8; 9]).

(** The data file consists of a 92 byte header and the records [rs], the key file of
    [B] buckets behind the header block, with spill chains of lengths [lens]. *)
Record database (ks bs : N) (dat key : bytes) (rs : list record) (lens : list N) : Prop := Database {
  db_records : exists hdr, blen hdr = 92 /\ dat = hdr ++ flat_map image rs;
  db_records_ok : Forall (record_ok ks) rs;
  db_blocks : blen key = (blen lens + 1) * bs;
  db_chains : chain_lengths bs (blen lens) dat key lens }.

(** The result of verify() agrees with the statistics, in all but the number of bytes
    in all spill records. *)
Definition reports (v : vinfo) (st : stats) : Prop :=
  vi_key_count v = s_values st /\
  vi_value_count v = s_values st /\
  vi_value_bytes v = s_value_bytes st /\
  vi_spill_count v = s_spills_used st /\
  vi_spill_count_tot v = s_spills st /\
  vi_spill_bytes v = s_spill_bytes_used st /\
  vi_hist v = s_hist st.

(** ** Files with arbitrary contents
    What is read from any data file as a record: a 6 byte field whose low 32 bits are
    the size of the value, then key and value; or, when these bits are 0, a spill
    record whose first 8 bytes hold that field and a size, with some contents. *)
Inductive chunk := CVal (m k v : bytes) | CSpill (m c : bytes).

Definition chunk_image (c : chunk) : bytes :=
  match c with CVal m k v => m ++ k ++ v | CSpill m c => m ++ c end.

Definition chunk_ok (ks : N) (c : chunk) : Prop :=
  match c with
  | CVal m k v => blen m = 6 /\ blen k = ks /\ 0 < blen v /\ be_value m mod 2 ^ 32 = blen v
  | CSpill m c => blen m = 8 /\ be_value (firstn 6 m) mod 2 ^ 32 = 0
  end.

(** How far a spill record extends: as its 2 byte size says, or as long as the bucket
    in it, which begins with the 2 byte number of entries. *)
Definition by_size (c : chunk) : Prop :=
  match c with CVal _ _ _ => True | CSpill m x => be_value (skipn 6 m) = blen x end.
Definition by_count (c : chunk) : Prop :=
  match c with CVal _ _ _ => True | CSpill m x => 8 <= blen x /\ blen x = 8 + 18 * be_value (firstn 2 x) end.

(** Its size field is that of a record written by the library. *)
Definition plain (c : chunk) : Prop :=
  match c with CVal m _ v => be_value m = blen v | CSpill _ _ => True end.

(** A spill record holds a bucket and nothing else. *)
Definition bucket_inside (r : record) : Prop :=
  match r with Value _ _ => True | Spill c => 8 <= blen c /\ blen c = 8 + 18 * be_value (firstn 2 c) end.

(** A closed database: no log; the data file is a header of 92 bytes and the records
    [rs] for the key size in the header; the key file holds anything.  No file has
    2^64 bytes or more. *)
Definition record_files (w : world) (rs : list record) : Prop :=
  exists hdr k, w_dat w = Some (hdr ++ flat_map image rs) /\ blen hdr = 92 /\ w_key w = Some k /\ w_log w = None /\
    bytes_ok (hdr ++ flat_map image rs) /\ bytes_ok k /\ files_fit w /\
    Forall (record_ok (num_at 26 2 hdr)) rs /\ Forall bucket_inside rs.
