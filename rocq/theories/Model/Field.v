(** Integer fields: include/nudb/detail/field.hpp.  All multi-byte integers are
    big-endian in files and in memory images of buckets. *)
From Verif Require Import Model.Bytes.

(** [*p++] at position i of the data returned by istream::data. *)
Definition byte_at (l : bytes) (i : nat) : N := nth i l 0.

(** [(t>>k)&0xff] *)
Definition byte_of (t k : N) : N := N.land (N.shiftr t k) 255.

(** readp<uint16_t>: include/nudb/detail/field.hpp:86-96. *)
Definition rd16 (p : bytes) : N :=
  let t := N.shiftl (byte_at p 0) 8 in
  N.lor (byte_at p 1) t.

(** readp<uint24_t>: include/nudb/detail/field.hpp:98-109. *)
Definition rd24 (p : bytes) : N :=
  let t := N.shiftl (byte_at p 0) 16 in
  let t := N.lor (N.shiftl (byte_at p 1) 8) t in
  N.lor (byte_at p 2) t.

(** readp<uint32_t>: include/nudb/detail/field.hpp:111-123. *)
Definition rd32 (p : bytes) : N :=
  let t := N.shiftl (byte_at p 0) 24 in
  let t := N.lor (N.shiftl (byte_at p 1) 16) t in
  let t := N.lor (N.shiftl (byte_at p 2) 8) t in
  N.lor (byte_at p 3) t.

(** readp<uint48_t>: include/nudb/detail/field.hpp:125-139. *)
Definition rd48 (p : bytes) : N :=
  let t := N.shiftl (byte_at p 0) 40 in
  let t := N.lor (N.shiftl (byte_at p 1) 32) t in
  let t := N.lor (N.shiftl (byte_at p 2) 24) t in
  let t := N.lor (N.shiftl (byte_at p 3) 16) t in
  let t := N.lor (N.shiftl (byte_at p 4) 8) t in
  N.lor (byte_at p 5) t.

(** readp<uint64_t>: include/nudb/detail/field.hpp:141-157. *)
Definition rd64 (p : bytes) : N :=
  let t := N.shiftl (byte_at p 0) 56 in
  let t := N.lor (N.shiftl (byte_at p 1) 48) t in
  let t := N.lor (N.shiftl (byte_at p 2) 40) t in
  let t := N.lor (N.shiftl (byte_at p 3) 32) t in
  let t := N.lor (N.shiftl (byte_at p 4) 24) t in
  let t := N.lor (N.shiftl (byte_at p 5) 16) t in
  let t := N.lor (N.shiftl (byte_at p 6) 8) t in
  N.lor (byte_at p 7) t.

(** read_size48: include/nudb/detail/field.hpp:168-176.  The static_cast keeps
    the low 32 bits; the BOOST_ASSERT on the value is not modelled here (only
    values below 2^32 are ever written). *)
Definition rd_size48 (p : bytes) : N := N.land (rd48 p) 4294967295.

(** write<uint16_t>: include/nudb/detail/field.hpp:190-200. *)
Definition wr16 (t : N) : bytes := [byte_of t 8; byte_of t 0].

(** write<uint24_t>: include/nudb/detail/field.hpp:202-213. *)
Definition wr24 (t : N) : bytes := [byte_of t 16; byte_of t 8; byte_of t 0].

(** write<uint32_t>: include/nudb/detail/field.hpp:215-227. *)
Definition wr32 (t : N) : bytes :=
  [byte_of t 24; byte_of t 16; byte_of t 8; byte_of t 0].

(** write<uint48_t>: include/nudb/detail/field.hpp:229-243.  The BOOST_ASSERT
    (value < 2^48) is checked by the callers that can exceed it. *)
Definition wr48 (t : N) : bytes :=
  [byte_of t 40; byte_of t 32; byte_of t 24; byte_of t 16; byte_of t 8; byte_of t 0].

(** write<uint64_t>: include/nudb/detail/field.hpp:245-260. *)
Definition wr64 (t : N) : bytes :=
  [byte_of t 56; byte_of t 48; byte_of t 40; byte_of t 32;
   byte_of t 24; byte_of t 16; byte_of t 8; byte_of t 0].

(** Memory image of to_little_endian(v): include/nudb/detail/endian.hpp:56-80. *)
Definition le64 (t : N) : bytes :=
  [byte_of t 0; byte_of t 8; byte_of t 16; byte_of t 24;
   byte_of t 32; byte_of t 40; byte_of t 48; byte_of t 56].
