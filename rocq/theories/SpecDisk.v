(** Specification of the contents of a database's files, independent of the
    model: where records are, what the buckets and overflow chains hold. *)
From Coq Require Export Permutation.
From Verif Require Import Model.Bytes SpecFormat.

(** The file has the bytes [x] at offset [off]. *)
Definition holds_at (file : bytes) (off : N) (x : bytes) : Prop :=
  off + blen x <= blen file /\ bsub off (blen x) file = x.

(** Linear hashing: the bucket among [B] an entry with hash [h] belongs to. *)
Definition home (B h : N) : N :=
  let m := 2 ^ N.log2_up B in
  if h mod m <? B then h mod m else h mod m - m / 2.

(** A stored value: offset of its record in the data file, key and value. *)
Definition stored := (N * bytes * bytes)%type.
Definition sto_key (x : stored) : bytes := snd (fst x).
Definition sto_val (x : stored) : bytes := snd x.
Definition sto_off (x : stored) : N := fst (fst x).

(** Its record: 6 byte size, key, value; records start behind the 92 byte header. *)
Definition record_at (dat : bytes) (x : stored) : Prop :=
  92 <= sto_off x /\
  holds_at dat (sto_off x) (be 6 (blen (sto_val x)) ++ sto_key x ++ sto_val x).

(** Its index entry, [H] being the 48-bit hash function. *)
Definition index_entry (H : bytes -> N) (x : stored) : N * N * N :=
  (sto_off x, blen (sto_val x), H (sto_key x)).

(** The chain of overflow (spill) records starting at [off] holds the entries:
    every record is a full bucket, preceded by 6 zero bytes and its 2 byte size,
    and refers only to a record at a smaller offset.  Offset 0 ends the chain. *)
Inductive spill_chain (bs : N) (dat : bytes) : N -> list (N * N * N) -> Prop :=
| spill_end : spill_chain bs dat 0 []
| spill_more off es next rest :
    92 + 8 <= off ->
    holds_at dat (off - 8)
      (be 6 0 ++ be 2 (8 + 18 * N.of_nat (length es)) ++ bucket_image es next) ->
    N.of_nat (length es) = capacity bs -> by_hash es -> next < off ->
    spill_chain bs dat next rest ->
    spill_chain bs dat off (es ++ rest).

(** Block [n] of the key file is a bucket padded with zeros. *)
Definition block_is (bs : N) (key : bytes) (n : N) (es : list (N * N * N)) (spill : N) : Prop :=
  holds_at key ((n + 1) * bs)
    (bucket_image es spill ++ zeros (bs - (8 + 18 * N.of_nat (length es)))) /\
  N.of_nat (length es) <= capacity bs /\ by_hash es /\
  Forall (fun x => let '(o, s, h) := x in o < 2 ^ 48 /\ s < 2 ^ 32 /\ h < 2 ^ 48) es /\
  spill < 2 ^ 48.

(** The index: bucket [n] and its chain hold exactly the entries belonging to
    bucket [n], each once. *)
Definition index_ok (bs B : N) (dat key : bytes) (entries : list (N * N * N)) : Prop :=
  forall n, n < B -> exists es spill rest,
    block_is bs key n es spill /\ spill_chain bs dat spill rest /\
    Permutation (es ++ rest) (filter (fun x => home B (hash_of x) =? n) entries).
