(** XXH64 as published (xxHash fast digest algorithm, version 0.1.1), independent of
    the model. *)
From Verif Require Import Model.Bytes.

Definition W : N := 2 ^ 64.

Definition PRIME1 : N := 0x9E3779B185EBCA87.
Definition PRIME2 : N := 0xC2B2AE3D27D4EB4F.
Definition PRIME3 : N := 0x165667B19E3779F9.
Definition PRIME4 : N := 0x85EBCA77C2B2AE63.
Definition PRIME5 : N := 0x27D4EB2F165667C5.

(** Rotation to the left of a 64-bit word. *)
Definition rol (x r : N) : N := (x * 2 ^ r) mod W + x / 2 ^ (64 - r).

(** The little endian number in [n] bytes at offset [o]. *)
Definition le_at (d : bytes) (o n : nat) : N :=
  fold_right (fun b a => b + 256 * a) 0 (firstn n (skipn o d)).

Definition xround (acc lane : N) : N :=
  (rol ((acc + lane * PRIME2) mod W) 31 * PRIME1) mod W.

Definition xmerge (acc accN : N) : N :=
  (N.lxor acc (xround 0 accN) * PRIME1 + PRIME4) mod W.

(** Accumulator [j] after all stripes of 32 bytes. *)
Definition accumulate (d : bytes) (j : nat) (start : N) : N :=
  fold_left (fun acc i => xround acc (le_at d (32 * i + 8 * j) 8)) (seq 0 (length d / 32)) start.

Definition converge (a1 a2 a3 a4 : N) : N :=
  xmerge (xmerge (xmerge (xmerge
    ((rol a1 1 + rol a2 7 + rol a3 12 + rol a4 18) mod W) a1) a2) a3) a4.

Definition start_acc (seed : N) (d : bytes) : N :=
  if (length d <? 32)%nat then (seed + PRIME5) mod W
  else converge
    (accumulate d 0 ((seed + PRIME1 + PRIME2) mod W))
    (accumulate d 1 ((seed + PRIME2) mod W))
    (accumulate d 2 seed)
    (accumulate d 3 ((seed + (W - PRIME1)) mod W)).

Definition eat8 (acc lane : N) : N := (rol (N.lxor acc (xround 0 lane)) 27 * PRIME1 + PRIME4) mod W.
Definition eat4 (acc lane : N) : N := (rol (N.lxor acc (lane * PRIME1 mod W)) 23 * PRIME2 + PRIME3) mod W.
Definition eat1 (acc lane : N) : N := (rol (N.lxor acc (lane * PRIME5 mod W)) 11 * PRIME1) mod W.

(** The input behind the last stripe: words of 8 bytes, one of 4, single bytes. *)
Definition finish_input (d : bytes) (acc : N) : N :=
  let n := length d in
  let o := (32 * (n / 32))%nat in
  let k8 := ((n - o) / 8)%nat in
  let acc := fold_left (fun acc i => eat8 acc (le_at d (o + 8 * i) 8)) (seq 0 k8) acc in
  let o := (o + 8 * k8)%nat in
  let k4 := ((n - o) / 4)%nat in
  let acc := fold_left (fun acc i => eat4 acc (le_at d (o + 4 * i) 4)) (seq 0 k4) acc in
  let o := (o + 4 * k4)%nat in
  fold_left eat1 (skipn o d) acc.

Definition avalanche (acc : N) : N :=
  let acc := N.lxor acc (acc / 2 ^ 33) in
  let acc := acc * PRIME2 mod W in
  let acc := N.lxor acc (acc / 2 ^ 29) in
  let acc := acc * PRIME3 mod W in
  N.lxor acc (acc / 2 ^ 32).

Definition XXH64 (seed : N) (d : bytes) : N :=
  avalanche (finish_input d ((start_acc seed d + N.of_nat (length d)) mod W)).
