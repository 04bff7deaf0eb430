(** Rounding of durations: include/nudb/_experimental/chrono_util.hpp.  A duration is a whole number of ticks.
    [num] / [den] is the length of a tick of the given duration in ticks of the result; ticks of the result and
    of the argument are compared by multiplying with [den] and [num].  Numbers are unbounded: overflow of the
    representation of a duration is not modelled, nor are durations of fractional ticks. *)
From Coq Require Import ZArith.
Local Open Scope Z_scope.

(** std::chrono::duration_cast: truncates towards zero. *)
Definition duration_cast (num den d : Z) : Z := Z.quot (d * num) den.

(** floor(): include/nudb/_experimental/chrono_util.hpp:17-25. *)
Definition dur_floor (num den d : Z) : Z :=
  let t := duration_cast num den d in
  if d * num <? t * den then t - 1 else t.

(** round(): include/nudb/_experimental/chrono_util.hpp:27-45. *)
Definition dur_round (num den d : Z) : Z :=
  let t0 := duration_cast num den d in
  let t1 := t0 + 1 in
  let diff0 := d * num - t0 * den in
  let diff1 := t1 * den - d * num in
  if diff0 =? diff1 then (if Z.odd t0 then t1 else t0)
  else if diff0 <? diff1 then t0
  else t1.

(** ceil(): include/nudb/_experimental/chrono_util.hpp:47-55. *)
Definition dur_ceil (num den d : Z) : Z :=
  let t := duration_cast num den d in
  if t * den <? d * num then t + 1 else t.
