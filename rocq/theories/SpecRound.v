(** What rounding means.  [x] / [den] is the exact duration, [t] the rounded one. *)
From Coq Require Import ZArith.
Local Open Scope Z_scope.

(** The largest number that is not larger. *)
Definition rounds_down (x den t : Z) : Prop := t * den <= x < (t + 1) * den.

(** The smallest number that is not smaller. *)
Definition rounds_up (x den t : Z) : Prop := (t - 1) * den < x <= t * den.

(** No number is nearer, and of two equally near ones it is the even one. *)
Definition rounds_to_nearest (x den t : Z) : Prop :=
  forall u, u <> t ->
    Z.abs (x - t * den) < Z.abs (x - u * den) \/
    Z.abs (x - t * den) = Z.abs (x - u * den) /\ Z.Even t.
