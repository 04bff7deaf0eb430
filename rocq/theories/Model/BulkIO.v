(** Buffered sequential access: include/nudb/detail/bulkio.hpp. *)
From Verif Require Import Model.Bytes Model.Err Model.IO.

(** bulk_reader: include/nudb/detail/bulkio.hpp:22-63.  [br_avail] is the
    unconsumed part of the buffer (bytes used_ .. used_+avail_ of buf_),
    [br_cap] is buf_.size(). *)
Record breader := BReader {
  br_file : fname; br_last : N; br_off : N; br_avail : bytes; br_cap : N }.

(** Constructor: include/nudb/detail/bulkio.hpp:52-63. *)
Definition br_make (f : fname) (offset last buffer_size : N) : breader :=
  BReader f last offset [] buffer_size.

(** offset(): include/nudb/detail/bulkio.hpp:36-40. *)
Definition br_offset (r : breader) : N := br_off r - blen (br_avail r).

(** eof(): include/nudb/detail/bulkio.hpp:42-46. *)
Definition br_eof (r : breader) : bool := br_last r <=? br_offset r.

(** prepare(): include/nudb/detail/bulkio.hpp:65-104.  Returns the [needed]
    bytes of the istream and the advanced reader.  An error leaves the reader
    unusable, as in C++ after a failed read. *)
Definition br_prepare (r : breader) (needed : N) : prog (res (bytes * breader)) :=
  let avail := blen (br_avail r) in
  r' <- (if avail <? needed then
           if br_last r <? br_off r + needed - avail then pfail short_read
           else
             let cap := if br_cap r <? needed then needed else br_cap r in
             let n := N.min (cap - avail) (br_last r - br_off r) in
             d <- p_read (br_file r) (br_off r) n ;;
             pret (BReader (br_file r) (br_last r) (br_off r + n) (br_avail r ++ d) cap)
         else pret r) ;;
  pret (btake needed (br_avail r'),
        BReader (br_file r') (br_last r') (br_off r') (bdrop needed (br_avail r')) (br_cap r')).

(** bulk_writer: include/nudb/detail/bulkio.hpp:110-156.  [bw_buf] are the used_
    first bytes of buf_, [bw_cap] is buf_.size(); [bw_append] is the mode in
    which the file was opened. *)
Record bwriter := BWriter {
  bw_file : fname; bw_append : bool; bw_off : N; bw_buf : bytes; bw_cap : N }.

(** Constructor: include/nudb/detail/bulkio.hpp:146-156. *)
Definition bw_make (f : fname) (ap : bool) (offset buffer_size : N) : bwriter :=
  BWriter f ap offset [] buffer_size.

(** size(): include/nudb/detail/bulkio.hpp:125-130. *)
Definition bw_size (w : bwriter) : N := blen (bw_buf w).

(** offset(): include/nudb/detail/bulkio.hpp:132-138. *)
Definition bw_offset (w : bwriter) : N := bw_off w + blen (bw_buf w).

(** flush(): include/nudb/detail/bulkio.hpp:176-191. *)
Definition bw_flush (w : bwriter) : prog (res bwriter) :=
  if blen (bw_buf w) =? 0 then pret w
  else
    p_write (bw_file w) (bw_append w) (bw_off w) (bw_buf w) ;;;
    pret (BWriter (bw_file w) (bw_append w) (bw_off w + blen (bw_buf w)) [] (bw_cap w)).

(** prepare() followed by writing exactly the prepared bytes [d] to the returned
    ostream: include/nudb/detail/bulkio.hpp:158-174.  All callers fill the whole
    ostream right after prepare, so the two steps are one here. *)
Definition bw_put (w : bwriter) (d : bytes) : prog (res bwriter) :=
  let needed := blen d in
  w1 <- (if bw_cap w <? blen (bw_buf w) + needed then bw_flush w else pret w) ;;
  let cap := if bw_cap w1 <? needed then needed else bw_cap w1 in
  pret (BWriter (bw_file w1) (bw_append w1) (bw_off w1) (bw_buf w1 ++ d) cap).
