(** C54 and C55: data races and mutexes. *)
From Coq Require Import Relations.
From Verif Require Import Model.Bytes Model.Access SpecRace Proofs.RaceFacts.
Open Scope N_scope.

(** C54.  Any number of threads call fetch(), insert(), set_burst(), the observers and the
    functions of the context, flushes run, and the store may be closed.  At no time are
    two threads about to access the same memory, one of them writing it, except for ec_,
    and for ec_ only after a flush has failed. *)
Theorem C54_no_race_partial : forall n s p,
  reached n s -> race s p -> p = Ec /\ me_ecb s = true /\ 1 <= me_fails s.
Proof. exact no_race_but_ec. Qed.

(** As long as no file operation of a flush has failed there are no data races. *)
Theorem C54_no_race_before_failure : forall n s p, reached n s -> me_fails s = 0 -> ~ race s p.
Proof. intros n s p R F Q. pose proof (no_race_but_ec n s p R Q). lia. Qed.

(** C55.  No threads wait in a circle for mutexes that the next one holds. *)
Theorem C55_no_circle : forall n s t, reached n s -> ~ clos_trans nat (waits s) t t.
Proof. exact no_circle. Qed.

(** Mutexes are locked in a fixed order: u_, m_, that of the gentex; that of the context
    only when none of these is held. *)
Theorem C55_order : forall n s t h l m k,
  reached n s -> nth_error (me_th s) t = Some (h, Do (Acq l m) k) -> is_mutex l = true ->
  forall l' m', In (l', m') h -> is_mutex l' = true ->
    match l, l' with LM, LU | LG, LU | LG, LM => True | _, _ => False end.
Proof.
  intros n s t h l m k R E Hl l' m' Hi Hm. pose proof (lower_held n s t h l m k R E Hl l' m' Hi Hm) as Q.
  pose proof (context_alone n s t h l m k R E l' m' Hi) as Q2.
  destruct l, l'; try discriminate; vm_compute in Q; try exact I; try discriminate.
  all: specialize (Q2 eq_refl); discriminate.
Qed.

(** A thread that has finished its call holds nothing, or has closed the store and holds
    no mutex. *)
Theorem C55_given_back : forall n s t h,
  reached n s -> nth_error (me_th s) t = Some (h, End) ->
  h = [] \/ In (LA, Ex) h /\ forall l m, In (l, m) h -> is_mutex l = false.
Proof. exact given_back. Qed.

(** ** Concrete executions *)
Fixpoint play (l : list (nat * choice)) (s : mem) : option mem :=
  match l with
  | [] => Some s
  | (t, ch) :: l => match astep t ch s with Some s => play l s | None => None end
  end.
Lemma play_reached n l : forall s s', reached n s -> play l s = Some s' -> reached n s'.
Proof.
  induction l as [|[t ch] l IH]; intros s s' R; cbn [play]; [intros [= <-]; exact R|].
  destruct (astep t ch s) as [s1|] eqn:E; [|discriminate]. apply IH. exact (reached_step n s t ch s1 R E).
Qed.

Definition gos (t : nat) (k : nat) : list (nat * choice) := repeat (t, Go) k.
Definition sec (t : nat) : list (nat * choice) := [(t, Second)].
Definition fst_ (t : nat) : list (nat * choice) := [(t, First)].

(** fetch() up to the search in p0, and on to unlock_gen(); insert() up to u_, and on to
    m_; flush up to the first operation that may fail, to the first offset written into
    p0, and to the start of a new generation. *)
Definition fetch_p0 t := [(t, Call 0)] ++ gos t 2 ++ sec t ++ gos t 4 ++ sec t.
Definition fetch_gen t := gos t 1 ++ sec t ++ gos t 3 ++ sec t ++ gos t 4 ++ sec t ++ gos t 1.
Definition insert_u t := [(t, Call 1)] ++ gos t 2 ++ sec t ++ gos t 2.
Definition flush_fail t := [(t, Call 4)] ++ gos t 8 ++ fst_ t ++ gos t 6.
Definition flush_off t := sec t ++ sec t ++ gos t 1 ++ sec t ++ gos t 1 ++ sec t ++ gos t 2 ++ sec t ++ fst_ t.
Definition flush_gen t := gos t 3 ++ sec t ++ sec t ++ sec t ++ sec t ++ gos t 7.

Definition next (s : option mem) (t : nat) : option act :=
  match s with
  | Some s => match nth_error (me_th s) t with Some (_, Do a _) => Some a | _ => None end
  | None => None
  end.

(** Two threads search p0 while the flush writes the offsets of its elements. *)
Definition overlap := play (flush_fail 0 ++ flush_off 0 ++ fetch_p0 1 ++ fetch_p0 2) (quiet_mem 3).
Example C54_sample :
  next overlap 0 = Some (Wr P0off) /\ next overlap 1 = Some (Rd P0) /\ next overlap 2 = Some (Rd P0).
Proof. vm_compute. repeat split. Qed.

(** A search that ends holds the mutex of the gentex, a flush that holds m_ waits for it,
    an insertion that holds u_ waits for m_, and another one waits for u_. *)
Definition queue := play (fetch_p0 3 ++ fetch_gen 3 ++ insert_u 2 ++ gos 2 1 ++ flush_fail 0 ++ flush_off 0 ++ flush_gen 0
  ++ insert_u 1) (quiet_mem 4).
Example C55_sample :
  match queue with
  | Some s => map fst (me_th s) = [[(LM, Ex); (LF, Ex)]; [(LA, Sh)]; [(LU, Ex); (LA, Sh)]; [(LG, Ex); (LA, Sh)]] /\
     next queue 0 = Some (Acq LG Ex) /\ next queue 1 = Some (Acq LU Ex) /\ next queue 2 = Some (Acq LM Sh)
  | None => False
  end.
Proof. vm_compute. repeat split. Qed.

(** A flush fails and sets ecb_; a search sees it and is about to copy ec_; the next flush
    finds another operation failing and is about to write ec_. *)
Definition clobber := flush_fail 0 ++ fst_ 0 ++ gos 0 8 ++ [(1%nat, Call 0)] ++ gos 1 2 ++ fst_ 1 ++ gos 1 1
  ++ flush_fail 0 ++ fst_ 0.
Theorem C54_ec_refuted : exists n s, reached n s /\ race s Ec.
Proof.
  exists 2%nat. destruct (play clobber (quiet_mem 2)) as [s|] eqn:E.
  - exists s. split; [exact (play_reached 2 clobber _ s (reached_start 2) E)|].
    assert (Q : next (Some s) 0 = Some (Wr Ec) /\ next (Some s) 1 = Some (Rd Ec)) by (rewrite <- E; vm_compute; auto).
    clear E. destruct Q as [Q0 Q1]. unfold next in Q0, Q1.
    exists 0%nat, 1%nat, (Rd Ec). split; [discriminate|]. split; [|split; [|left; reflexivity]].
    + destruct (nth_error (me_th s) 0) as [[h [| |a k| |]]|] eqn:E0; try discriminate. injection Q0 as ->. exists h, k. exact E0.
    + destruct (nth_error (me_th s) 1) as [[h [| |a k| |]]|] eqn:E1; try discriminate. injection Q1 as ->. exists h, k. exact E1.
  - exfalso. vm_compute in E. discriminate.
Qed.

Print Assumptions C54_no_race_partial.
Print Assumptions C54_no_race_before_failure.
Print Assumptions C54_ec_refuted.
Print Assumptions C55_no_circle.
Print Assumptions C55_order.
Print Assumptions C55_given_back.
