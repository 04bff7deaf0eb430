(** Buffered input and output with the memory of the buffer: include/nudb/detail/buffer.hpp,
    stream.hpp and bulkio.hpp.  BulkIO.v has the same classes without memory.  Every
    access outside allocated memory gives EUB.  Offsets and sizes are unbounded numbers:
    their sums stay far below 2^64. *)
From Verif Require Import Model.Bytes Model.Err Model.IO.

(** buffer: include/nudb/detail/buffer.hpp:18-81.  [bf_size] is size_, [bf_mem] the block
    that buf_ points to (none if empty). *)
Record buffer := Buf { bf_size : N; bf_mem : bytes }.
Definition bf_new : buffer := Buf 0 [].

(** reserve(n): include/nudb/detail/buffer.hpp:66-72.  A new block has arbitrary contents,
    [junk n]; what was in the old one is lost. *)
Definition bf_reserve (junk : N -> bytes) (n : N) (b : buffer) : buffer :=
  Buf n (if bf_size b <? n then junk n else bf_mem b).

(** The bytes [off .. off+len) are in the block. *)
Definition bf_in (b : buffer) (off len : N) : bool := off + len <=? blen (bf_mem b).
Definition bf_need {A} (c : bool) (p : prog (res A)) : prog (res A) := if c then p else pfail EUB.

(** istream, ostream: include/nudb/detail/stream.hpp:21-126, pointing into the block of a
    buffer: the position of buf_, and size_ (for an ostream the size is not recorded, so
    nothing is checked when writing to it). *)
Record istream := IStream { is_pos : N; is_size : N }.
Definition ostream := N.

(** istream::data(k): include/nudb/detail/stream.hpp:56-69, and reading the k bytes. *)
Definition is_data (b : buffer) (is : istream) (k : N) : res (bytes * istream) :=
  if is_size is <? k then Er EAssert
  else if bf_in b (is_pos is) k
  then Ok (bsub (is_pos is) k (bf_mem b), IStream (is_pos is + k) (is_size is - k))
  else Er EUB.

(** ostream::data(k), include/nudb/detail/stream.hpp:116-124, and writing the k bytes
    [d]: include/nudb/detail/stream.hpp:138-143, include/nudb/detail/field.hpp. *)
Definition os_write (b : buffer) (os : ostream) (d : bytes) : res (buffer * ostream) :=
  if bf_in b os (blen d) then Ok (Buf (bf_size b) (bwrite os d (bf_mem b)), os + blen d) else Er EUB.

(** bulk_reader: include/nudb/detail/bulkio.hpp:22-50. *)
Record mreader := MReader {
  mr_file : fname; mr_last : N; mr_off : N; mr_avail : N; mr_used : N; mr_buf : buffer }.

(** Constructor: include/nudb/detail/bulkio.hpp:52-63. *)
Definition mr_make (junk : N -> bytes) (f : fname) (offset last buffer_size : N) : mreader :=
  MReader f last offset 0 0 (bf_reserve junk buffer_size bf_new).

(** prepare(): include/nudb/detail/bulkio.hpp:65-104.  Unsigned subtractions must not
    wrap. *)
Definition mr_prepare (junk : N -> bytes) (r : mreader) (needed : N) : prog (res (istream * mreader)) :=
  r <- (if mr_avail r <? needed then
          if mr_last r <? mr_off r + needed - mr_avail r then pfail short_read
          else
            let b := mr_buf r in
            bf_need (bf_in b (mr_used r) (mr_avail r))
            (let old := bsub (mr_used r) (mr_avail r) (bf_mem b) in
             let b := if bf_size b <? needed then bf_reserve junk needed bf_new else b in
             bf_need (bf_in b 0 (mr_avail r))
             (let b := Buf (bf_size b) (bwrite 0 old (bf_mem b)) in
              bf_need ((mr_avail r <=? bf_size b) && (mr_off r <=? mr_last r))
              (let n := N.min (bf_size b - mr_avail r) (mr_last r - mr_off r) in
               bf_need (bf_in b (mr_avail r) n)
               (d <- p_read (mr_file r) (mr_off r) n ;;
                pret (MReader (mr_file r) (mr_last r) (mr_off r + n) (mr_avail r + n) 0
                        (Buf (bf_size b) (bwrite (mr_avail r) d (bf_mem b))))))))
        else pret r) ;;
  pret (IStream (mr_used r) needed,
        MReader (mr_file r) (mr_last r) (mr_off r) (mr_avail r - needed) (mr_used r + needed) (mr_buf r)).

(** bulk_writer: include/nudb/detail/bulkio.hpp:110-156. *)
Record mwriter := MWriter { mw_file : fname; mw_append : bool; mw_off : N; mw_used : N; mw_buf : buffer }.
Definition mw_make (junk : N -> bytes) (f : fname) (ap : bool) (offset buffer_size : N) : mwriter :=
  MWriter f ap offset 0 (bf_reserve junk buffer_size bf_new).
Definition mw_offset (w : mwriter) : N := mw_off w + mw_used w.

(** flush(): include/nudb/detail/bulkio.hpp:176-191. *)
Definition mw_flush (w : mwriter) : prog (res mwriter) :=
  if mw_used w =? 0 then pret w
  else
    bf_need (bf_in (mw_buf w) 0 (mw_used w))
    (p_write (mw_file w) (mw_append w) (mw_off w) (bsub 0 (mw_used w) (bf_mem (mw_buf w))) ;;;
     pret (MWriter (mw_file w) (mw_append w) (mw_off w + mw_used w) 0 (mw_buf w))).

(** prepare(): include/nudb/detail/bulkio.hpp:158-174. *)
Definition mw_prepare (junk : N -> bytes) (w : mwriter) (needed : N) : prog (res (ostream * mwriter)) :=
  w <- (if bf_size (mw_buf w) <? mw_used w + needed then mw_flush w else pret w) ;;
  let b := if bf_size (mw_buf w) <? needed then bf_reserve junk needed (mw_buf w) else mw_buf w in
  pret (mw_used w, MWriter (mw_file w) (mw_append w) (mw_off w) (mw_used w + needed) b).

(** ** Their use
    All callers (impl/recover.ipp, impl/visit.ipp, impl/verify.ipp, impl/rekey.ipp,
    impl/basic_store.ipp, detail/bucket.hpp) prepare a number of bytes, read or write
    fields through the stream, and prepare the next; a writer is flushed at the end. *)

(** Reading the fields of sizes [ks]. *)
Fixpoint is_fields (b : buffer) (is : istream) (ks : list N) : res (list bytes) :=
  match ks with
  | [] => Ok []
  | k :: ks =>
    rbind (is_data b is k) (fun x =>
    rbind (is_fields b (snd x) ks) (fun ds => Ok (fst x :: ds)))
  end.

(** Any number of times: prepare [fst], then read the fields [snd]. *)
Fixpoint mr_records (junk : N -> bytes) (r : mreader) (l : list (N * list N)) : prog (res (list (list bytes))) :=
  match l with
  | [] => pret []
  | (needed, ks) :: l =>
    '(is, r) <- mr_prepare junk r needed ;;
    d <- plift (is_fields (mr_buf r) is ks) ;;
    ds <- mr_records junk r l ;;
    pret (d :: ds)
  end.

(** Writing the fields [ds]. *)
Fixpoint os_fields (b : buffer) (os : ostream) (ds : list bytes) : res buffer :=
  match ds with
  | [] => Ok b
  | d :: ds => rbind (os_write b os d) (fun x => os_fields (fst x) (snd x) ds)
  end.

(** Prepare [needed] bytes, then write the fields [ds]. *)
Definition mw_record (junk : N -> bytes) (w : mwriter) (needed : N) (ds : list bytes) : prog (res mwriter) :=
  '(os, w) <- mw_prepare junk w needed ;;
  b <- plift (os_fields (mw_buf w) os ds) ;;
  pret (MWriter (mw_file w) (mw_append w) (mw_off w) (mw_used w) b).

(** Any number of times; the offsets before. *)
Fixpoint mw_records (junk : N -> bytes) (w : mwriter) (l : list (N * list bytes)) : prog (res (list N * mwriter)) :=
  match l with
  | [] => pret ([], w)
  | (needed, ds) :: l =>
    let o := mw_offset w in
    w <- mw_record junk w needed ds ;;
    '(os, w) <- mw_records junk w l ;;
    pret (o :: os, w)
  end.

Definition read_records (junk : N -> bytes) (f : fname) (offset last size : N) (l : list (N * list N)) :=
  mr_records junk (mr_make junk f offset last size) l.
Definition write_records (junk : N -> bytes) (f : fname) (offset size : N) (l : list (N * list bytes)) :=
  '(os, w) <- mw_records junk (mw_make junk f true offset size) l ;; mw_flush w ;;; pret os.
