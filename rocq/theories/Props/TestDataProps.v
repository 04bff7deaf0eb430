(** C85: the random data of the tests.  C86: rounding of durations. *)
From Verif Require Import Model.Bytes Model.Err Model.Generator Model.Round SpecItems SpecRound
  Proofs.BytesFacts Proofs.GeneratorFacts Proofs.RoundFacts.

(** ** C85 *)

(** A generator can be made with any seed but 0.  However many numbers are drawn, it never comes to the state
    in which it gives nothing but zeros. *)
Theorem C85_never_zero : forall seed n, 0 < seed < 2 ^ 64 ->
  exists g, engine_seed seed = Ok g /\ after n g <> (0, 0).
Proof.
  intros seed n B. destruct (engine_seed seed) as [g|] eqn:E.
  - exists g; split; [reflexivity|]. exact (never_zero seed g n B E).
  - exfalso. unfold engine_seed in E. replace (seed =? 0) with false in E by lia. discriminate.
Qed.

Theorem C85_zero_seed : engine_seed 0 = Er EThrow.
Proof. reflexivity. Qed.

(** That state is to be avoided. *)
Theorem C85_zero_state : forall n, drawn n (0, 0) = repeat 0 n.
Proof. induction n as [|n IH]; [reflexivity|]. cbn [drawn repeat]. change (fst (engine_draw (0, 0))) with (0, 0).
  rewrite IH. reflexivity. Qed.

(** Generators with different seeds are never in the same state after the same number of draws. *)
Theorem C85_distinct : forall s1 s2 g1 g2 n, s1 < 2 ^ 64 -> s2 < 2 ^ 64 -> s1 <> s2 ->
  engine_seed s1 = Ok g1 -> engine_seed s2 = Ok g2 -> after n g1 <> after n g2.
Proof. exact distinct. Qed.

(** rngfill() fills exactly the [size] bytes at [dest] with the numbers drawn and changes no other. *)
Theorem C85_fill : forall le dest size g mem, dest + size <= blen mem ->
  rngfill le dest size g mem =
    Ok (btake dest mem ++ random_bytes le g size ++ bdrop (dest + size) mem, after (numbers_for size) g) /\
  blen (random_bytes le g size) = size.
Proof. intros; split; [apply fill; assumption|apply blen_random]. Qed.

(** Item [i] of the tests has a key of the right size and a value of the size drawn for it, and it is the same
    every time, whatever is in the buffer from earlier items. *)
Theorem C85_item : forall le sizef old keySize i,
  (forall n, blen (old n) = n) -> i < 2 ^ 64 - 1 ->
  exists g value key, engine_seed (i + 1) = Ok g /\
    test_item le sizef old keySize i = Ok (value, key) /\
    blen value = fst (sizef g) /\ blen key = keySize /\
    value ++ key = random_bytes le (snd (sizef g)) (fst (sizef g) + keySize) /\
    forall old', (forall n, blen (old' n) = n) -> test_item le sizef old' keySize i = Ok (value, key).
Proof.
  intros le sizef old keySize i O B. destruct (item le sizef old keySize i O B) as (g & E & I). cbv zeta in I.
  eexists g, _, _. split; [exact E|]. split; [exact I|]. split; [|split; [|split]].
  - rewrite blen_btake, blen_random. lia.
  - rewrite blen_bdrop, blen_random. lia.
  - rewrite btake_bdrop. f_equal. lia.
  - intros old' O'. destruct (item le sizef old' keySize i O' B) as (g' & E' & I'). cbv zeta in I'.
    assert (g' = g) by congruence. subst g'. exact I'.
Qed.

(** The last number has no item. *)
Theorem C85_last_item : forall le sizef old keySize, test_item le sizef old keySize (2 ^ 64 - 1) = Er EThrow.
Proof. exact item_last. Qed.

(** Item 0 with a value of 5 bytes and a key of 4; the buffer is one of ones, then one of twos. *)
Example C85_example :
  let sizef := fun g => (5, fst (engine_draw g)) in
  test_item true sizef (fun n => repeat 1 (N.to_nat n)) 4 0 = test_item true sizef (fun n => repeat 2 (N.to_nat n)) 4 0 /\
  test_item true sizef (fun n => repeat 1 (N.to_nat n)) 4 0 <> test_item true sizef (fun n => repeat 1 (N.to_nat n)) 4 1 /\
  match test_item true sizef (fun n => repeat 1 (N.to_nat n)) 4 0 with
  | Ok (v, k) => length v = 5%nat /\ length k = 4%nat
  | Er _ => False
  end.
Proof. cbv zeta. split; [reflexivity|split; [|split; reflexivity]]. vm_compute. discriminate. Qed.

(** Filling 11 of 16 bytes. *)
Example C85_fill_example :
  match engine_seed 1977 with
  | Ok g => match rngfill true 3 11 g (repeat 7 16) with
            | Ok (m, g') => btake 3 m = [7; 7; 7] /\ bdrop 14 m = [7; 7] /\ length m = 16%nat /\ g' = after 2 g
            | Er _ => False
            end
  | Er _ => False
  end.
Proof. vm_compute. repeat split. Qed.

(** ** C86 *)

Local Open Scope Z_scope.

(** floor() and ceil() round down and up.  round() takes the nearest number, the even one of two, when the
    duration is not negative. *)
Theorem C86_round_partial : forall num den d, 0 < num -> 0 < den ->
  rounds_down (d * num) den (dur_floor num den d) /\
  rounds_up (d * num) den (dur_ceil num den d) /\
  (0 <= d -> rounds_to_nearest (d * num) den (dur_round num den d)).
Proof.
  intros num den d N D. split; [|split].
  - exact (floor_down num den d D).
  - exact (ceil_up num den d D).
  - intros. apply round_nearest; [exact D|nia].
Qed.

(** The specifications leave one answer each. *)
Theorem C86_unique : forall x den s t, 0 < den ->
  (rounds_down x den s -> rounds_down x den t -> s = t) /\
  (rounds_up x den s -> rounds_up x den t -> s = t) /\
  (rounds_to_nearest x den s -> rounds_to_nearest x den t -> s = t).
Proof.
  intros x den s t D. split; [|split].
  - exact (down_unique x den s t D).
  - exact (up_unique x den s t D).
  - exact (nearest_unique x den s t D).
Qed.

(** Negative durations are rounded up by round(), not to the nearest number. *)
Theorem C86_negative : forall num den d, 0 < num -> 0 < den -> d < 0 -> rounds_up (d * num) den (dur_round num den d).
Proof.
  intros num den d N D B. rewrite round_negative by nia. exact (ceil_up num den d D).
Qed.

Theorem C86_negative_refuted : exists num den d, 0 < num /\ 0 < den /\
  ~ rounds_to_nearest (d * num) den (dur_round num den d).
Proof. exact round_refuted. Qed.

(** Milliseconds to seconds. *)
Example C86_example :
  dur_round 1 1000 1500 = 2 /\ dur_round 1 1000 2500 = 2 /\ dur_round 1 1000 2501 = 3 /\ dur_round 1 1000 (-1600) = -1 /\
  dur_floor 1 1000 (-1600) = -2 /\ dur_ceil 1 1000 1001 = 2 /\ dur_floor 60 1 3 = 180.
Proof. repeat split. Qed.

Print Assumptions C85_never_zero.
Print Assumptions C85_zero_seed.
Print Assumptions C85_zero_state.
Print Assumptions C85_distinct.
Print Assumptions C85_fill.
Print Assumptions C85_item.
Print Assumptions C85_last_item.
Print Assumptions C86_round_partial.
Print Assumptions C86_unique.
Print Assumptions C86_negative.
Print Assumptions C86_negative_refuted.
