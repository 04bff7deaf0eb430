(** Proofs for C86. *)
From Coq Require Import ZArith Lia.
From Verif Require Import Model.Round SpecRound.
Local Open Scope Z_scope.

(** What duration_cast() does, without division. *)
Lemma cast_spec num den d : 0 < den -> exists r, d * num = duration_cast num den d * den + r /\
  (0 <= d * num -> 0 <= r < den) /\ (d * num <= 0 -> - den < r <= 0).
Proof.
  intros D. unfold duration_cast. exists (Z.rem (d * num) den). split; [|split].
  - pose proof (Z.quot_rem' (d * num) den). lia.
  - intros. apply Z.rem_bound_pos; lia.
  - intros. pose proof (Z.rem_bound_pos (- (d * num)) den). rewrite Z.rem_opp_l in H0 by lia. lia.
Qed.

Theorem floor_down num den d : 0 < den -> rounds_down (d * num) den (dur_floor num den d).
Proof.
  intros D. destruct (cast_spec num den d D) as (r & E & P & N). unfold rounds_down, dur_floor.
  set (t := duration_cast num den d) in *. clearbody t. set (x := d * num) in *. clearbody x.
  destruct (x <? t * den) eqn:Q; [apply Z.ltb_lt in Q|apply Z.ltb_ge in Q]; lia.
Qed.

Theorem ceil_up num den d : 0 < den -> rounds_up (d * num) den (dur_ceil num den d).
Proof.
  intros D. destruct (cast_spec num den d D) as (r & E & P & N). unfold rounds_up, dur_ceil.
  set (t := duration_cast num den d) in *. clearbody t. set (x := d * num) in *. clearbody x.
  destruct (t * den <? x) eqn:Q; [apply Z.ltb_lt in Q|apply Z.ltb_ge in Q]; lia.
Qed.

(** The numbers next to [t] decide. *)
Lemma nearest_of den t r : 0 < den -> 2 * Z.abs r <= den -> (2 * Z.abs r = den -> Z.Even t) ->
  rounds_to_nearest (t * den + r) den t.
Proof.
  intros D B Ev u U.
  replace (t * den + r - t * den) with r by lia.
  assert (K : Z.abs r <= Z.abs (t * den + r - u * den) /\
              (Z.abs r = Z.abs (t * den + r - u * den) -> 2 * Z.abs r = den)).
  { replace (t * den + r - u * den) with ((t - u) * den + r) by lia.
    assert (1 <= t - u \/ t - u <= -1) by lia. set (k := t - u) in *. clearbody k. nia. }
  destruct K as [K1 K2]. destruct (Z.eq_dec (Z.abs r) (Z.abs (t * den + r - u * den))); [right|left]; auto. lia.
Qed.

Theorem round_nearest num den d : 0 < den -> 0 <= d * num -> rounds_to_nearest (d * num) den (dur_round num den d).
Proof.
  intros D NN. destruct (cast_spec num den d D) as (r & E & P & _). specialize (P NN). unfold dur_round.
  set (t := duration_cast num den d) in *. clearbody t. set (x := d * num) in *. clearbody x.
  cbv zeta. destruct (x - t * den =? (t + 1) * den - x) eqn:Q; [apply Z.eqb_eq in Q|apply Z.eqb_neq in Q].
  - destruct (Z.odd t) eqn:O.
    + replace x with ((t + 1) * den + (r - den)) by lia. apply nearest_of; [lia..|].
      intros _. apply Z.even_spec. rewrite Z.even_add. rewrite <- Z.negb_odd, O. reflexivity.
    + rewrite E. apply nearest_of; [lia..|]. intros _. apply Z.even_spec. rewrite <- Z.negb_odd, O. reflexivity.
  - destruct (x - t * den <? (t + 1) * den - x) eqn:L; [apply Z.ltb_lt in L|apply Z.ltb_ge in L].
    + rewrite E. apply nearest_of; lia.
    + replace x with ((t + 1) * den + (r - den)) by lia. apply nearest_of; lia.
Qed.

Theorem round_negative num den d : 0 < den -> d * num < 0 -> dur_round num den d = dur_ceil num den d.
Proof.
  intros D NN. destruct (cast_spec num den d D) as (r & E & _ & P). specialize (P ltac:(lia)). unfold dur_round, dur_ceil.
  set (t := duration_cast num den d) in *. clearbody t. set (x := d * num) in *. clearbody x.
  cbv zeta. replace (x - t * den =? (t + 1) * den - x) with false by (symmetry; apply Z.eqb_neq; lia).
  replace (x - t * den <? (t + 1) * den - x) with true by (symmetry; apply Z.ltb_lt; lia).
  replace (t * den <? x) with false by (symmetry; apply Z.ltb_ge; lia). reflexivity.
Qed.

(** -1.6 is rounded to -1. *)
Theorem round_refuted : exists num den d, 0 < num /\ 0 < den /\ ~ rounds_to_nearest (d * num) den (dur_round num den d).
Proof.
  exists 1, 10, (-16). split; [reflexivity|split; [reflexivity|]]. intros H.
  specialize (H (-2)). change (dur_round 1 10 (-16)) with (-1) in H.
  destruct H as [H|[H _]]; [discriminate| |]; cbv in H; discriminate.
Qed.

(** The specifications leave one answer. *)
Lemma down_unique x den s t : 0 < den -> rounds_down x den s -> rounds_down x den t -> s = t.
Proof. unfold rounds_down; intros; nia. Qed.
Lemma up_unique x den s t : 0 < den -> rounds_up x den s -> rounds_up x den t -> s = t.
Proof. unfold rounds_up; intros; nia. Qed.
Lemma nearest_unique x den s t : 0 < den -> rounds_to_nearest x den s -> rounds_to_nearest x den t -> s = t.
Proof.
  intros D S T. destruct (Z.eq_dec s t) as [|NE]; [assumption|exfalso].
  destruct (S t ltac:(lia)) as [A|[A EA]], (T s ltac:(lia)) as [B|[B EB]]; try lia.
  destruct EA as [a ->], EB as [b ->].
  assert (x - 2 * a * den = x - 2 * b * den \/ x - 2 * a * den = - (x - 2 * b * den)) as [K|K] by lia; [nia|].
  assert (C : x = (a + b) * den) by lia. subst x.
  assert (a <> b) by lia.
  specialize (S (a + b)). destruct S as [S|[S _]]; nia.
Qed.
