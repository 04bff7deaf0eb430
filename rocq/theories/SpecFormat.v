(** Specification of the file formats, independent of the model: big-endian
    integers, bucket images. *)
From Coq Require Export Sorted.
From Verif Require Import Model.Bytes.

(** [k] bytes of [n], most significant first. *)
Definition be (k : nat) (n : N) : bytes :=
  map (fun i => n / 256 ^ N.of_nat (k - 1 - i) mod 256) (seq 0 k).

(** The number a byte string denotes, most significant byte first. *)
Definition be_value (l : bytes) : N := fold_left (fun a b => 256 * a + b) l 0.

(** Image of one bucket entry: offset, size and hash, 6 bytes each. *)
Definition entry_image (off size h : N) : bytes := be 6 off ++ be 6 size ++ be 6 h.

(** Image of a bucket: 2 byte count, 6 byte spill offset, entries. *)
Definition bucket_image (es : list (N * N * N)) (spill : N) : bytes :=
  be 2 (N.of_nat (length es)) ++ be 6 spill ++
  flat_map (fun x => let '(off, size, h) := x in entry_image off size h) es.

(** Number of entries a block has room for. *)
Definition capacity (block_size : N) : N := (block_size - 8) / 18.

(** Entries (offset, size, hash) in ascending order of hash. *)
Definition hash_of (x : N * N * N) : N := snd x.
Definition by_hash (es : list (N * N * N)) : Prop :=
  StronglySorted (fun a b => hash_of a <= hash_of b) es.
