(** C50: file objects own their descriptors. *)
From Verif Require Import Model.Bytes Model.Handles Proofs.BytesFacts Proofs.HandleFacts.

(** Object 1 is opened (descriptor 3), object 2 constructed from it, object 3 opened (descriptor
    4) and then assigned from 2; object 3 still has a file open when 1 is opened again. *)
Definition hsample : list hop :=
  [PNew 1; POpen 1 (OGets 3 0); PMoveNew 2 1; PNew 3; POpen 3 (OGets 4 0); PMove 3 2; POpen 1 (OFails 13);
   POpen 1 (OGets 4 0)].

(** ** C50 *)
(** C50.  After any sequence of constructions, moves, assignments (also to itself), open(),
    create(), close() and destructions of file objects, whatever the system answers: the
    descriptors that are open are those in the objects, each in one object only; and no
    descriptor has ever been closed that was not open. *)
Theorem C50_descriptors_owned : forall px l s ec, handles px l = Some (HOk s ec) ->
  hs_bad s = [] /\ NoDup (hs_open s) /\
  (forall fd, In fd (hs_open s) <-> exists i, hs_obj s i = Some (Some fd)) /\
  (forall i j fd, hs_obj s i = Some (Some fd) -> hs_obj s j = Some (Some fd) -> i = j).
Proof. intros px l s ec H. destruct (handles_inv px l s ec H) as [H1 H2 H3 H4]. auto. Qed.

(** C50: so no descriptor is left open when all objects have been destroyed or closed. *)
Theorem C50_no_leak : forall px l s ec, handles px l = Some (HOk s ec) ->
  (forall i fd, hs_obj s i <> Some (Some fd)) -> hs_open s = [].
Proof.
  intros px l s ec H Hn. destruct (C50_descriptors_owned px l s ec H) as (_ & _ & H3 & _).
  destruct (hs_open s) as [|fd o]; [reflexivity|]. destruct (proj1 (H3 fd) (or_introl eq_refl)) as (i & Hi).
  exfalso. exact (Hn i fd Hi).
Qed.

Example C50_descriptors_owned_example : exists s ec,
  handles true hsample = Some (HOk s ec) /\ hs_open s = [4; 3] /\
  hs_obj s 1 = Some (Some 4) /\ hs_obj s 2 = Some None /\ hs_obj s 3 = Some (Some 3).
Proof. do 2 eexists. split; [reflexivity|]. repeat split. Qed.

Example C50_no_leak_example : exists s ec,
  handles true (hsample ++ [PDestroy 3; PDestroy 2; PDestroy 1]) = Some (HOk s ec) /\
  (forall i fd, hs_obj s i <> Some (Some fd)) /\ hs_open s = [].
Proof.
  assert (E : exists s ec, handles true (hsample ++ [PDestroy 3; PDestroy 2; PDestroy 1]) = Some (HOk s ec) /\
    forall i, hs_obj s i = None).
  { do 2 eexists. split; [reflexivity|]. intros i. vm_compute.
    repeat match goal with |- context [match ?x with _ => _ end] => destruct x end; reflexivity. }
  destruct E as (s & ec & E & Ho).
  assert (Hn : forall i fd, hs_obj s i <> Some (Some fd)) by (intros i fd; rewrite Ho; discriminate).
  exists s, ec. split; [exact E|]. split; [exact Hn|]. exact (C50_no_leak _ _ _ _ E Hn).
Qed.

(** C50: a move hands the open file over and leaves the source closed. *)
Theorem C50_move_hands_over : forall px s i j d fd, hs_obj s i = Some d -> hs_obj s j = Some fd -> i <> j ->
  exists s', hdo px (PMove i j) s = Some (HOk s' 0) /\ hs_obj s' i = Some fd /\ hs_obj s' j = Some None /\
    forall k, k <> i -> k <> j -> hs_obj s' k = hs_obj s k.
Proof.
  intros px s i j d fd Hi Hj Hn. cbn [hdo]. rewrite Hi, Hj. destruct (N.eqb_spec i j); [contradiction|].
  eexists. split; [reflexivity|]. cbn [set_obj hs_obj]. split; [rewrite hput_other by auto; apply hput_same|].
  split; [apply hput_same|]. intros k Hki Hkj. rewrite !hput_other by auto.
  destruct d as [m|]; cbn [hclose]; [|reflexivity]. cbn [set_obj hs_obj]. rewrite hput_other by auto.
  unfold kclose. destruct (existsb _ _); reflexivity.
Qed.

Example C50_move_hands_over_example : exists s ec,
  handles true [PNew 1; POpen 1 (OGets 3 0); PNew 2; POpen 2 (OGets 4 0)] = Some (HOk s ec) /\
  hs_obj s 1 = Some (Some 3) /\ hs_obj s 2 = Some (Some 4).
Proof. do 2 eexists. split; [reflexivity|]. split; reflexivity. Qed.

(** C50: open() and create() that report no error have opened the file; those that fail for want
    of a descriptor report the system's error and leave the object closed.  With win32_file
    an error is reported exactly when no file has been opened. *)
Theorem C50_open_reports : forall px s i r s' ec, hs_obj s i = Some None ->
  (match r with OFails ev => ev <> 0 | _ => True end) ->
  hdo px (POpen i r) s = Some (HOk s' ec) ->
  (ec = 0 -> exists fd, hs_obj s' i = Some (Some fd)) /\
  (forall ev, r = OFails ev -> ec = ev /\ hs_obj s' i = Some None) /\
  (px = false -> ec <> 0 -> hs_obj s' i = Some None).
Proof.
  intros px s i r s' ec Hi Hr. cbn [hdo]. rewrite Hi. destruct r as [ev|fd adv]; cbn [hopen].
  - intros E. injection E as <- <-. cbn [set_obj hs_obj]. rewrite hput_same. split; [contradiction|].
    split; [|auto]. intros ev' E. injection E as <-. auto.
  - destruct (existsb (N.eqb fd) (hs_open s)); [discriminate|]. intros E. injection E as <- <-.
    cbn [set_obj hs_obj]. rewrite hput_same. split; [eauto|]. split; [discriminate|]. intros ->. cbn [andb]. contradiction.
Qed.

Example C50_open_reports_example : exists s s' s'' ec,
  handles true [PNew 1] = Some (HOk s ec) /\ hs_obj s 1 = Some None /\
  hdo true (POpen 1 (OFails 13)) s = Some (HOk s' 13) /\ hs_obj s' 1 = Some None /\
  hdo true (POpen 1 (OGets 3 0)) s = Some (HOk s'' 0) /\ hs_obj s'' 1 = Some (Some 3).
Proof. do 4 eexists. split; [reflexivity|]. split; [reflexivity|]. split; [reflexivity|]. split; [reflexivity|]. split; reflexivity. Qed.

(** C50, what does not hold of posix_file: when posix_fadvise() fails, which does not set errno,
    open() reports whatever error happens to be in errno, or none; and the object is left open
    although an error has been reported, so that the next open() of it fails an assertion. *)
Theorem C50_open_error_refuted :
  (exists s s' ec, handles true [PNew 1; POpen 1 (OFails 13)] = Some (HOk s ec) /\ hs_obj s 1 = Some None /\
     hdo true (POpen 1 (OGets 3 22)) s = Some (HOk s' 13) /\ hs_obj s' 1 = Some (Some 3) /\
     hdo true (POpen 1 (OGets 4 0)) s' = Some HAssert) /\
  (exists s s' ec, handles true [PNew 1] = Some (HOk s ec) /\ hdo true (POpen 1 (OGets 3 22)) s = Some (HOk s' 0)).
Proof.
  split.
  - do 3 eexists. split; [reflexivity|]. split; [reflexivity|]. split; [reflexivity|]. split; reflexivity.
  - do 3 eexists. split; reflexivity.
Qed.

(** C50, what does not hold: to erase a file that does not exist is an error, although the
    documentation says that it is not (include/nudb/posix_file.hpp, win32_file.hpp: erase). *)
Theorem C50_erase_missing_refuted : forall r, herase false r <> 0.
Proof. intros r. discriminate. Qed.

Print Assumptions C50_descriptors_owned.
Print Assumptions C50_no_leak.
Print Assumptions C50_move_hands_over.
Print Assumptions C50_open_reports.
Print Assumptions C50_open_error_refuted.
Print Assumptions C50_erase_missing_refuted.
