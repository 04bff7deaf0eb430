(** C70: a store gives back its files. *)
From Verif Require Import Model.Bytes Model.IO Model.ObjectLife Proofs.ObjectLifeFacts.

(** After any calls of open() and close() on a new store, however they ended: while the store is
    open its state has each of the three files open, once, and nothing else is open. *)
Theorem C70_open_has_three : forall px l o, so_calls px l so_new = Some o -> o_open o = true ->
  NoDup (o_held o) /\ forall v f, In (v, f) (o_held o) <-> v = VMember.
Proof.
  intros px l o H Ho. destruct (kept_new px l o H) as [[_ ->]|[K _]]; [exact three_once|congruence].
Qed.

(** A call of open() that fails leaves no file open that was not open before, and the store stays
    closed. *)
Theorem C70_failed_open : forall px l o t o', so_calls px l so_new = Some o ->
  so_do_open px t o = Some (o', false) -> o_open o' = false /\ o_held o' = o_held o.
Proof.
  intros px l o t o' H E. destruct (open_kept px t o o' false (kept_new px l o H) E) as (H1 & _ & H2). auto.
Qed.

(** close() that can save everything leaves no file open, even if the log cannot be erased. *)
Theorem C70_closed : forall px l o erased, so_calls px l so_new = Some o -> o_open o = true ->
  let (o', ok) := so_do_close false erased o in ok = erased /\ o_open o' = false /\ o_held o' = [].
Proof.
  intros px l o erased H Ho. pose proof (close_kept false erased o (kept_new px l o H)) as K. cbv zeta in K.
  destruct (so_do_close false erased o) as [o' ok]. cbn [fst snd] in K. destruct K as (K1 & K2 & _).
  destruct (K2 Ho eq_refl). auto.
Qed.

(** When a store has been destroyed no file is open. *)
Theorem C70_destroyed : forall px l o bad erased, so_calls px l so_new = Some o -> so_destroy bad erased o = [].
Proof. exact destroyed. Qed.

(** With posix_file a closed store can be opened again, also after close() has failed; then just
    the three new files are open. *)
Theorem C70_reopen_posix : forall l o t, so_calls true l so_new = Some o -> o_open o = false ->
  (exists a, (a = AMissing \/ a = AOpens) /\ ot_recover t = Tries AOpens false AOpens false a false) ->
  ot_open t = Tries AOpens false AOpens false AOpens false -> ot_short t = false ->
  exists o', so_do_open true t o = Some (o', true) /\ NoDup (o_held o') /\ forall v f, In (v, f) (o_held o') <-> v = VMember.
Proof.
  intros l o t H Ho H1 H2 H3. destruct (reopen_posix o t (kept_new _ _ _ H) Ho H1 H2 H3) as (o' & E & K).
  exists o'. split; [exact E|]. rewrite K. exact three_once.
Qed.

(** But close() that reports an error of a flush or commit leaves all three files open, although
    the store is closed. *)
Theorem C70_failed_close_refuted : forall px l o erased, so_calls px l so_new = Some o -> o_open o = true ->
  let (o', ok) := so_do_close true erased o in ok = false /\ o_open o' = false /\ forall f, In (VMember, f) (o_held o').
Proof.
  intros px l o erased H Ho. pose proof (close_kept true erased o (kept_new px l o H)) as K. cbv zeta in K.
  destruct (so_do_close true erased o) as [o' ok]. cbn [fst snd] in K. destruct K as (K1 & _ & K3 & _).
  destruct (K3 Ho eq_refl) as [K4 K5]. split; [exact K5|]. split; [exact K1|]. intros f. rewrite K4. apply three_once. reflexivity.
Qed.

(** With win32_file such a store can then never be opened again. *)
Theorem C70_reopen_win32_refuted : forall l o erased l' o', so_calls false l so_new = Some o -> o_open o = true ->
  so_calls false l' (fst (so_do_close true erased o)) = Some o' -> o_open o' = false.
Proof.
  intros l o erased l' o' H Ho E. destruct (close_kept true erased o (kept_new _ l o H)) as (K1 & _ & K3 & _).
  destruct (K3 Ho eq_refl) as [K4 _]. apply (stuck_win32 l' _ o' K1 K4 E).
Qed.

(** ** Cases *)
Definition good (a : answer) : otries :=
  OTries (Tries AOpens false AOpens false a false) (Tries AOpens false AOpens false AOpens false) false.
(** open() fails at the headers of the key file; then it succeeds, and close() fails. *)
Definition life : list ocall :=
  [COpen (OTries (Tries AOpens false AOpens false AMissing false) (Tries AOpens false AOpens false AOpens true) false);
   COpen (good AOpens)].
Example life_opens : forall px, exists o, so_calls px life so_new = Some o /\ o_open o = true /\ length (o_held o) = 3%nat.
Proof. intros []; eexists; (split; [reflexivity|]); split; reflexivity. Qed.
Example life_failed_close : forall px, exists o, so_calls px (life ++ [CClose true true]) so_new = Some o /\
  o_open o = false /\ length (o_held o) = 3%nat.
Proof. intros []; eexists; (split; [reflexivity|]); split; reflexivity. Qed.
Example life_closed : forall px, exists o, so_calls px (life ++ [CClose false true; COpen (good AMissing); CClose false false]) so_new = Some o /\
  o_open o = false /\ o_held o = [].
Proof. intros []; eexists; (split; [reflexivity|]); split; reflexivity. Qed.
(** The same calls after a close() that failed: open with posix_file, refused with win32_file. *)
Example life_reopen : exists o1 o2,
  so_calls true (life ++ [CClose true true; COpen (good AOpens)]) so_new = Some o1 /\ o_open o1 = true /\ length (o_held o1) = 3%nat /\
  so_calls false (life ++ [CClose true true; COpen (good AOpens)]) so_new = Some o2 /\ o_open o2 = false.
Proof. do 2 eexists. split; [reflexivity|]. split; [reflexivity|]. split; [reflexivity|]. split; reflexivity. Qed.
(** posix_fadvise() fails on the log: the three files are closed again. *)
Example life_reports : exists o, so_calls true
  [COpen (OTries (Tries AOpens false AOpens false AMissing false) (Tries AOpens false AOpens false AReports false) false)] so_new = Some o /\
  o_open o = false /\ o_held o = [].
Proof. eexists. split; [reflexivity|]. split; reflexivity. Qed.

Print Assumptions C70_open_has_three.
Print Assumptions C70_failed_open.
Print Assumptions C70_closed.
Print Assumptions C70_destroyed.
Print Assumptions C70_reopen_posix.
Print Assumptions C70_failed_close_refuted.
Print Assumptions C70_reopen_win32_refuted.
