(** C29: the hash function. *)
From Verif Require Import Model.Bytes Model.Err Model.XXHash SpecXXH Proofs.XXHashFacts.

(** C29, for every input that starts at a multiple of 8, of any length, every seed and
    both byte orders. *)
Theorem C29_aligned : forall le addr d seed,
  bytes_ok d -> seed < 2 ^ 64 -> addr mod 8 = 0 ->
  xxh64 le addr d seed = Ok (XXH64 seed d).
Proof. exact xxh64_aligned. Qed.

(** C29, for every other input.  The test that selects the variant of the algorithm is
    inverted in the source, so the variant that dereferences 8 and 4 byte pointers
    runs exactly when the input is not aligned for them. *)
Theorem C29_misaligned : forall le addr d seed,
  bytes_ok d -> seed < 2 ^ 64 -> addr mod 8 <> 0 ->
  xxh64 le addr d seed =
    if (8 <=? blen d) || (4 <=? blen d) && negb (addr mod 4 =? 0) then Er EUB
    else Ok (XXH64 seed d).
Proof. exact xxh64_misaligned. Qed.

(** So the claim fails as stated: the hash of an 8 byte key at an odd address is
    computed by an unaligned load, which the language leaves undefined. *)
Theorem C29_all_alignments_refuted :
  exists le addr d seed, bytes_ok d /\ seed < 2 ^ 64 /\
    xxh64 le addr d seed <> Ok (XXH64 seed d).
Proof.
  exists true, 4097, [1; 2; 3; 4; 5; 6; 7; 8], 0. split; [|split].
  - repeat constructor.
  - reflexivity.
  - vm_compute. discriminate.
Qed.

(** The test vectors published with xxHash (xxhsum.c, BMK_sanityCheck). *)
Definition sanity_buffer : bytes :=
  (fix gen (n : nat) (g : N) : bytes :=
     match n with
     | O => []
     | S k => N.shiftr g 24 :: gen k (g * g mod 2 ^ 32)
     end) 101%nat 2654435761.

Example published_vectors :
  [XXH64 0 []; XXH64 2654435761 [];
   XXH64 0 (firstn 1 sanity_buffer); XXH64 2654435761 (firstn 1 sanity_buffer);
   XXH64 0 (firstn 14 sanity_buffer); XXH64 2654435761 (firstn 14 sanity_buffer);
   XXH64 0 sanity_buffer; XXH64 2654435761 sanity_buffer] =
  [0xEF46DB3751D8E999; 0xAC75FDA2929B17EF; 0x4FCE394CC88952D8; 0x739840CB819FA723;
   0xCFFA8DB881BC3A3D; 0x5B9611585EFCC9CB; 0x0EAB543384F878AD; 0xCAA65939306F1E21].
Proof. vm_compute. reflexivity. Qed.

Example C29_aligned_case :
  bytes_ok sanity_buffer /\
  xxh64 true 4096 sanity_buffer 2654435761 = Ok 0xCAA65939306F1E21 /\
  xxh64 false 4096 sanity_buffer 2654435761 = Ok 0xCAA65939306F1E21.
Proof.
  split.
  - apply Forall_forall. intros x Hx.
    assert (F : forallb (fun x => x <? 256) sanity_buffer = true) by (vm_compute; reflexivity).
    rewrite forallb_forall in F. apply N.ltb_lt, F, Hx.
  - vm_compute. split; reflexivity.
Qed.

Example C29_misaligned_case :
  xxh64 true 4097 (firstn 14 sanity_buffer) 0 = Er EUB /\
  xxh64 true 4097 (firstn 1 sanity_buffer) 0 = Ok 0x4FCE394CC88952D8 /\
  xxh64 true 4100 (firstn 6 sanity_buffer) 0 = Ok (XXH64 0 (firstn 6 sanity_buffer)).
Proof. vm_compute. repeat split; reflexivity. Qed.

Print Assumptions C29_aligned.
Print Assumptions C29_misaligned.
Print Assumptions C29_all_alignments_refuted.
