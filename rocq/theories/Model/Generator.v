(** The random data of the tests: include/nudb/_experimental/test/xor_shift_engine.hpp and operator[] of
    include/nudb/_experimental/test/test_store.hpp. *)
From Verif Require Import Model.Bytes Model.Err Model.XXHash Model.Field.

(** s_[0] and s_[1]: include/nudb/_experimental/test/xor_shift_engine.hpp:60. *)
Definition engine := (N * N)%type.

(** x ^= x >> k. *)
Definition xorshr (k x : N) : N := N.lxor x (N.shiftr x k).

(** murmurhash3(): include/nudb/_experimental/test/xor_shift_engine.hpp:90-100. *)
Definition murmurhash3 (x : N) : N :=
  let x := xorshr 33 x in
  let x := mul64 x 18397679294719823053 in
  let x := xorshr 33 x in
  let x := mul64 x 14181476777654086739 in
  xorshr 33 x.

(** seed() and the constructor: include/nudb/_experimental/test/xor_shift_engine.hpp:34-38, 67-75.
    A seed of 0 throws. *)
Definition engine_seed (seed : N) : res engine :=
  if seed =? 0 then Er EThrow
  else let s0 := murmurhash3 seed in Ok (s0, murmurhash3 s0).

(** operator(): include/nudb/_experimental/test/xor_shift_engine.hpp:77-88.  The new state and the number
    drawn. *)
Definition engine_draw (g : engine) : engine * N :=
  let s1 := fst g in
  let s0 := snd g in
  let s1 := N.lxor s1 (w64 (N.shiftl s1 23)) in
  let t := N.lxor (N.lxor (N.lxor s1 s0) (N.shiftr s1 17)) (N.shiftr s0 26) in
  ((s0, t), add64 t s0).

(** The object representation of a std::uint64_t on a little endian ([le = true]) or big endian machine. *)
Definition repr64 (le : bool) (v : N) : bytes :=
  let l := [byte_of v 0; byte_of v 8; byte_of v 16; byte_of v 24; byte_of v 32; byte_of v 40; byte_of v 48; byte_of v 56] in
  if le then l else rev l.

(** std::memcpy() to offset [dest] of a buffer; outside it is undefined behaviour. *)
Definition copy_to (dest : N) (d mem : bytes) : res bytes :=
  if dest + blen d <=? blen mem then Ok (bwrite dest d mem) else Er EUB.

(** The loop of rngfill(): include/nudb/_experimental/test/test_store.hpp:366-373, then lines 374-378.  The
    buffer [dest] points into is [mem]. *)
Fixpoint rngfill_loop (fuel : nat) (le : bool) (dest size : N) (g : engine) (mem : bytes) : res (bytes * engine) :=
  match fuel with
  | O => Er EDiverge
  | S fuel' =>
    if 8 <=? size then
      let '(g', v) := engine_draw g in
      match copy_to dest (repr64 le v) mem with
      | Ok mem' => rngfill_loop fuel' le (dest + 8) (size - 8) g' mem'
      | Er e => Er e
      end
    else if 0 <? size then
      let '(g', v) := engine_draw g in
      match copy_to dest (btake size (repr64 le v)) mem with
      | Ok mem' => Ok (mem', g')
      | Er e => Er e
      end
    else Ok (mem, g)
  end.

(** rngfill(): include/nudb/_experimental/test/test_store.hpp:357-379. *)
Definition rngfill (le : bool) (dest size : N) (g : engine) (mem : bytes) : res (bytes * engine) :=
  rngfill_loop (S (N.to_nat size)) le dest size g mem.

(** operator[]: include/nudb/_experimental/test/test_store.hpp:306-323, giving the value and the key the item
    points to.  [sizef] is sizef_, a std::uniform_int_distribution, taken as a function of the generator it is
    given.  [buf_.resize(needed)] gives the buffer [old needed], whose contents are left from earlier items or not
    initialised. *)
Definition test_item (le : bool) (sizef : engine -> N * engine) (old : N -> bytes) (keySize i : N) : res (bytes * bytes) :=
  match engine_seed (w64 (i + 1)) with
  | Er e => Er e
  | Ok g =>
    let '(size, g) := sizef g in
    let needed := keySize + size in
    match rngfill le 0 needed g (old needed) with
    | Ok (mem, _) => Ok (btake size mem, bsub size keySize mem)
    | Er e => Er e
    end
  end.
