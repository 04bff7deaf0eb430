(** C80: visit() of arbitrary data files. *)
From Verif Require Import Model.Bytes Model.Err Model.Field Model.Format Model.IO Model.BulkIO
  Model.Bucket Model.Pool Model.Recover Model.Create Model.Store Model.History Model.Visit
  Spec SpecFormat SpecHeader SpecVisit SpecVisitAny Proofs.BytesFacts Proofs.RefuseFacts Proofs.VisitFacts
  Proofs.VisitAny Props.Samples.

(** Any bytes are complete records followed by nothing, by part of a record, or by a size that no
    value can have; and in one way only. *)
Theorem C80_one_reading : forall key_size x, bytes_ok x ->
  exists l rest, parsed key_size x l rest /\
    forall l' rest', parsed key_size x l' rest' -> l' = l /\ rest' = rest.
Proof.
  intros ks x Hx. destruct (parse_any ks (length x) x (le_n _) Hx) as (l & rest & H). exists l, rest. split; auto.
  intros l' rest' H'. apply (parsed_unique ks l' x l rest' rest H' H).
Qed.

(** visit() of any file with a good header ends, changes no file, presents only keys of the size in
    the header and values of a possible size, reports progress that never decreases nor exceeds the
    size of the file, and returns success, short_read, the error of the callback, or (EThrow) throws. *)
Theorem C80_ends : forall cb w d,
  w_dat w = Some d -> bytes_ok d -> 92 <= blen d -> first_failed (dat_checks d) = None -> blen d < 2 ^ 64 ->
  exists calls r, run (visit cb) w = (w, Ok (calls, r)) /\
    progress_ok 0 (blen d) calls /\ Forall (well_sized (num_at 26 2 d)) (items calls) /\
    (r = Ok tt \/ r = Er short_read \/ r = Er EThrow \/
     exists b k v er, calls = b ++ [VItem k v] /\ cb b k v = Some er /\ r = Er er).
Proof. exact visit_any. Qed.

(** With the records [l] of the file and what follows them, [rest]: the calls are those of
    [spec_visit] for [l]; then visit() reports success if nothing follows, and the error of [cut_short] if
    part of a record follows. *)
Theorem C80_calls : forall cb w d,
  w_dat w = Some d -> bytes_ok d -> 92 <= blen d -> first_failed (dat_checks d) = None -> blen d < 2 ^ 64 ->
  forall l rest, parsed (num_at 26 2 d) (bdrop 92 d) l rest ->
  exists calls r, run (visit cb) w = (w, Ok (calls, r)) /\
    match spec_visit cb (blen d) 92 [VProgress 0 (blen d)] l with
    | (t, Some er) => calls = t /\ r = Er er
    | (t, None) =>
      (rest = [] -> calls = t /\ r = Ok tt) /\
      (forall er, cut_short (num_at 26 2 d) rest er -> calls = t /\ r = Er er) /\
      (oversize rest -> exists u, calls = t ++ u)
    end.
Proof. exact visit_parsed. Qed.

Definition hdr92 : bytes := enc_dat_header (create_dat_header sample_args).
Definition quiet : callback := fun _ _ _ => None.
Definition one_file (x : bytes) : world := World (Some (hdr92 ++ x)) None None.

(** An impossible size need not be noticed: a value of 2^32 + 1 bytes, of which one is there, is
    presented as a value of one byte, and visit() reports success. *)
Theorem C80_oversize_refuted :
  let x := be 6 (2 ^ 32 + 1) ++ [1; 2] ++ [7] in
  parsed 2 x [] x /\ oversize x /\
  run (visit quiet) (one_file x) =
    (one_file x, Ok ([VProgress 0 101; VItem [1; 2] [7]; VProgress 101 101], Ok tt)).
Proof.
  intros x. assert (O : oversize x).
  { exists (2 ^ 32 + 1), [1; 2; 7]. split; [|reflexivity]. change (2 ^ 32 + 1) with 4294967297.
    change (2 ^ 32) with 4294967296. change (2 ^ 48) with 281474976710656. lia. }
  split; [|split; [exact O|vm_compute; reflexivity]]. split; [reflexivity|]. split; [constructor|]. auto.
Qed.

(** The hypotheses of the theorems hold for a value, a spill record and part of a value. *)
Definition damaged : bytes := be 6 3 ++ [1; 2; 3; 4; 5] ++ be 6 0 ++ be 2 2 ++ [9; 9] ++ be 6 4 ++ [7; 8; 1].
Example C80_hypotheses :
  bytes_ok (hdr92 ++ damaged) /\ 92 <= blen (hdr92 ++ damaged) /\ first_failed (dat_checks (hdr92 ++ damaged)) = None /\
  blen (hdr92 ++ damaged) < 2 ^ 64 /\ num_at 26 2 (hdr92 ++ damaged) = 2 /\
  parsed 2 damaged [Value [1; 2] [3; 4; 5]; Spill [9; 9]] (be 6 4 ++ [7; 8; 1]) /\
  cut_short 2 (be 6 4 ++ [7; 8; 1]) EThrow.
Proof.
  assert (C : cut_short 2 (be 6 4 ++ [7; 8; 1]) EThrow) by (apply cut_value; vm_compute; auto).
  split; [repeat constructor|]. split; [vm_compute; discriminate|]. split; [vm_compute; reflexivity|].
  split; [vm_compute; reflexivity|]. split; [vm_compute; reflexivity|]. split; [|exact C].
  split; [vm_compute; reflexivity|]. split; [repeat constructor; vm_compute; reflexivity|]. right; left. eauto.
Qed.
Example C80_case : run (visit quiet) (one_file damaged) =
  (one_file damaged, Ok ([VProgress 0 122; VItem [1; 2] [3; 4; 5]; VProgress 103 122; VProgress 113 122], Er EThrow)).
Proof. vm_compute. reflexivity. Qed.

Print Assumptions C80_one_reading.
Print Assumptions C80_ends.
Print Assumptions C80_calls.
Print Assumptions C80_oversize_refuted.
