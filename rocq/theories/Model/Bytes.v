(** Byte strings: the values of files and memory blocks.
    A byte is an [N]; well-formed bytes are below 256 ([bytes_ok]).  Lengths and
    offsets are [N] (the C++ types are 64-bit; overflow of 64-bit offsets is not
    modelled because files are limited to 2^48 bytes by the format). *)
From Coq Require Export List NArith ZArith Lia Bool.
From Coq Require Export ZifyBool ZifyNat ZifyN.
Export ListNotations.
Open Scope N_scope.

Definition bytes := list N.

(** Length of a memory block or file (std::size_t / noff_t,
    include/nudb/type_traits.hpp). *)
Definition blen {A} (l : list A) : N := N.of_nat (length l).

(** First [n] elements (pointer range [p, p+n)). *)
Definition btake {A} (n : N) (l : list A) : list A := firstn (N.to_nat n) l.

(** All but the first [n] elements (pointer p+n). *)
Definition bdrop {A} (n : N) (l : list A) : list A := skipn (N.to_nat n) l.

(** Range [off, off+n). *)
Definition bsub {A} (off n : N) (l : list A) : list A := btake n (bdrop off l).

(** [n] zero bytes (std::memset(p, 0, n)). *)
Definition zeros (n : N) : bytes := repeat 0 (N.to_nat n).

(** Overwrite at offset [off], growing as pwrite does (a gap is zero-filled);
    for memory blocks used only within bounds (memcpy/memmove). *)
Definition bwrite (off : N) (d f : bytes) : bytes :=
  let f' := f ++ zeros (off - blen f) in
  btake off f' ++ d ++ bdrop (off + blen d) f'.

(** Every element is an octet. *)
Definition bytes_ok (l : bytes) : Prop := Forall (fun b => b < 256) l.

(** Equality of byte strings (std::memcmp(a,b,n) == 0 on equal lengths). *)
Fixpoint beq (a b : bytes) : bool :=
  match a, b with
  | [], [] => true
  | x :: a', y :: b' => (x =? y) && beq a' b'
  | _, _ => false
  end.

(** Lexicographic order (std::memcmp(a,b,n) < 0 on equal lengths). *)
Fixpoint blt (a b : bytes) : bool :=
  match a, b with
  | x :: a', y :: b' => if x <? y then true else if y <? x then false else blt a' b'
  | [], _ :: _ => true
  | _, [] => false
  end.

(** List operations indexed by [N] used for tables of buckets. *)
Definition nthN {A} (l : list A) (n : N) (d : A) : A := nth (N.to_nat n) l d.
