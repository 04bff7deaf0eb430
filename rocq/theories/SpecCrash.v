(** Specification of a store that may be stopped (power failure, kill) at any
    point and opened again.  Nothing here depends on the model of NuDB. *)
From Verif Require Import Model.Bytes Spec.

(** [Call c]: the call returns.  [Stop c]: the machine stops at some point of the
    call [c] and the database is opened again. *)
Inductive event := Call (c : op) | Stop (c : op).

Definition event_op (ev : event) : op := match ev with Call c | Stop c => c end.

(** The saved contents after a completed call, when [m] are the contents and [d]
    the saved contents before it: a flush and a close save everything. *)
Definition saved (m d : smap) (c : op) : smap :=
  match c with OpFlush | OpReopen => m | _ => d end.

(** [spec_events m d evs os m' d']: starting with contents [m], of which [d] are
    saved, the events may lead to contents [m'] and saved contents [d'] with
    answers [os].  A stop loses what is not saved; a flush that is stopped has
    saved either nothing or everything. *)
Inductive spec_events : smap -> smap -> list event -> list out -> smap -> smap -> Prop :=
| se_nil m d : spec_events m d [] [] m d
| se_call m d c evs os m' d' :
    spec_events (fst (spec_step m c)) (saved m d c) evs os m' d' ->
    spec_events m d (Call c :: evs) (snd (spec_step m c) :: os) m' d'
| se_lost m d c evs os m' d' :
    spec_events d d evs os m' d' ->
    spec_events m d (Stop c :: evs) os m' d'
| se_kept m d c evs os m' d' :
    spec_events (saved m d c) (saved m d c) evs os m' d' ->
    spec_events m d (Stop c :: evs) os m' d'.
