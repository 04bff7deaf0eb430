(** The hash function: include/nudb/detail/xxhash.hpp, include/nudb/xxhasher.hpp. *)
From Verif Require Import Model.Bytes Model.Err.

(** std::uint64_t arithmetic. *)
Definition w64 (x : N) : N := x mod 18446744073709551616.
Definition add64 (a b : N) : N := w64 (a + b).
Definition sub64 (a b : N) : N := w64 (a + (18446744073709551616 - b)).
Definition mul64 (a b : N) : N := w64 (a * b).

(** NUDB_XXH_rotl64: include/nudb/detail/xxhash.hpp:60. *)
Definition rotl64 (x r : N) : N := N.lor (w64 (N.shiftl x r)) (N.shiftr x (64 - r)).

(** include/nudb/detail/xxhash.hpp:103-107. *)
Definition prime64_1 : N := 11400714785074694791.
Definition prime64_2 : N := 14029467366897019727.
Definition prime64_3 : N :=  1609587929392839161.
Definition prime64_4 : N :=  9650029242287828579.
Definition prime64_5 : N :=  2870177450012600261.

(** The unsigned integer whose object representation is [l], on a little endian
    ([le = true]) or big endian machine. *)
Fixpoint mem_uint (le : bool) (l : bytes) : N :=
  match l with
  | [] => 0
  | b :: l' => if le then b + 256 * mem_uint le l' else b * 256 ^ blen l' + mem_uint le l'
  end.

(** __builtin_bswap32 and __builtin_bswap64, which NUDB_XXH_swap32 and
    NUDB_XXH_swap64 are with gcc and clang (include/nudb/detail/xxhash.hpp:63-73; the
    fallback in lines 75-101 is not modelled). *)
Fixpoint bswap (k : nat) (x : N) : N :=
  match k with
  | O => 0
  | S k' => (x mod 256) * 256 ^ N.of_nat k' + bswap k' (x / 256)
  end.

(** XXH_readLE32_align and XXH_readLE64_align: include/nudb/detail/xxhash.hpp:109-194,
    reading the [k] bytes at offset [p] of the input [d] whose address is [addr].  The
    variants for aligned input ([al]) access an integer through a pointer, which is
    undefined behaviour when the address is not a multiple of its alignment [k]. *)
Definition read_le (k : nat) (le al : bool) (addr : N) (d : bytes) (p : N) : res N :=
  if al && negb ((addr + p) mod N.of_nat k =? 0) then Er EUB
  else
    let v := mem_uint le (bsub p (N.of_nat k) d) in
    Ok (if le then v else bswap k v).

(** XXH64_round: include/nudb/detail/xxhash.hpp:196-204. *)
Definition xx_round (acc input : N) : N :=
  mul64 (rotl64 (add64 acc (mul64 input prime64_2)) 31) prime64_1.

(** XXH64_mergeRound: include/nudb/detail/xxhash.hpp:206-214. *)
Definition xx_merge (acc val : N) : N :=
  add64 (mul64 (N.lxor acc (xx_round 0 val)) prime64_1) prime64_4.

Section Input.
Variables (le al : bool) (addr : N) (d : bytes).
Notation get64 := (read_le 8 le al addr d).
Notation get32 := (read_le 4 le al addr d).

(** The do loop: include/nudb/detail/xxhash.hpp:246-253.  [limit] is bEnd - 32; [fuel]
    the length of the input, which is always enough. *)
Fixpoint xx_stripes (fuel : nat) (limit p v1 v2 v3 v4 : N) : res (N * N * N * N * N) :=
  match fuel with
  | O => Er EDiverge
  | S fuel' =>
    rbind (get64 p) (fun x => let v1 := xx_round v1 x in let p := p + 8 in
    rbind (get64 p) (fun x => let v2 := xx_round v2 x in let p := p + 8 in
    rbind (get64 p) (fun x => let v3 := xx_round v3 x in let p := p + 8 in
    rbind (get64 p) (fun x => let v4 := xx_round v4 x in let p := p + 8 in
    if p <=? limit then xx_stripes fuel' limit p v1 v2 v3 v4
    else Ok (p, v1, v2, v3, v4)))))
  end.

(** The while loop over 8 byte words: include/nudb/detail/xxhash.hpp:269-275. *)
Fixpoint xx_words (fuel : nat) (p h : N) : res (N * N) :=
  match fuel with
  | O => Er EDiverge
  | S fuel' =>
    if p + 8 <=? blen d then
      rbind (get64 p) (fun x =>
      let h := N.lxor h (xx_round 0 x) in
      let h := add64 (mul64 (rotl64 h 27) prime64_1) prime64_4 in
      xx_words fuel' (p + 8) h)
    else Ok (p, h)
  end.

(** The while loop over bytes: include/nudb/detail/xxhash.hpp:282-287. *)
Fixpoint xx_bytes (fuel : nat) (p h : N) : res N :=
  match fuel with
  | O => Er EDiverge
  | S fuel' =>
    if p <? blen d then
      let h := N.lxor h (mul64 (nthN d p 0) prime64_5) in
      let h := mul64 (rotl64 h 11) prime64_1 in
      xx_bytes fuel' (p + 1) h
    else Ok h
  end.

(** XXH64_endian_align: include/nudb/detail/xxhash.hpp:216-294. *)
Definition xxh64_endian_align (seed : N) : res N :=
  let len := blen d in
  let fuel := S (length d) in
  rbind
    (if 32 <=? len then
       let limit := len - 32 in
       let v1 := add64 (add64 seed prime64_1) prime64_2 in
       let v2 := add64 seed prime64_2 in
       let v3 := add64 seed 0 in
       let v4 := sub64 seed prime64_1 in
       rbind (xx_stripes fuel limit 0 v1 v2 v3 v4) (fun '(p, v1, v2, v3, v4) =>
       let h := add64 (add64 (add64 (rotl64 v1 1) (rotl64 v2 7)) (rotl64 v3 12)) (rotl64 v4 18) in
       let h := xx_merge h v1 in
       let h := xx_merge h v2 in
       let h := xx_merge h v3 in
       let h := xx_merge h v4 in
       Ok (p, h))
     else Ok (0, add64 seed prime64_5))
    (fun '(p, h) =>
  let h := add64 h len in
  rbind (xx_words fuel p h) (fun '(p, h) =>
  rbind
    (if p + 4 <=? len then
       rbind (get32 p) (fun x =>
       let h := N.lxor h (mul64 x prime64_1) in
       let h := add64 (mul64 (rotl64 h 23) prime64_2) prime64_3 in
       Ok (p + 4, h))
     else Ok (p, h))
    (fun '(p, h) =>
  rbind (xx_bytes fuel p h) (fun h =>
  let h := N.lxor h (N.shiftr h 33) in
  let h := mul64 h prime64_2 in
  let h := N.lxor h (N.shiftr h 29) in
  let h := mul64 h prime64_3 in
  let h := N.lxor h (N.shiftr h 32) in
  Ok h)))).
End Input.

(** XXH64 (which xxhasher calls, include/nudb/xxhasher.hpp:38-41):
    include/nudb/detail/xxhash.hpp:312-322.  As in the source, the variant for aligned
    input is chosen when the address is not a multiple of 8. *)
Definition xxh64 (le : bool) (addr : N) (d : bytes) (seed : N) : res N :=
  if N.land addr 7 =? 0 then xxh64_endian_align le false addr d seed
  else xxh64_endian_align le true addr d seed.
