(** C56: buffered input and output stay inside their buffers and transfer the right bytes. *)
From Verif Require Import Model.Bytes Model.Err Model.IO Model.BucketMem Model.BufferMem SpecBuffer
  Proofs.IOFacts Proofs.BufferFacts.
Open Scope N_scope.

(** What new memory contains: anything, but as much as asked for. *)
Definition memory (junk : N -> bytes) : Prop := forall n, blen (junk n) = n.

(** C56.  Reading: whatever the file answers, however large records and fields are
    compared to the buffer and to each other, no byte outside the buffer is touched (a
    field beyond the prepared bytes throws instead). *)
Theorem C56_reads_inside (junk : N -> bytes) (f : fname) (off last size : N) (l : wanted) r :
  memory junk -> yields (read_records junk f off last size l) r -> r <> Er EUB.
Proof. intros Hj. exact (read_inside junk Hj f off last size l r). Qed.

(** C56.  The fields read are those in the file, whatever the size of the buffer and
    whatever was in its memory. *)
Theorem C56_reads_right (junk : N -> bytes) (f : fname) (c : bytes) (off last size : N) (l : wanted) (w : world) :
  memory junk -> small l -> wget w f = Some c -> off <= last -> last <= blen c ->
  run (read_records junk f off last size l) w =
  (w, if off + total (map fst l) <=? last then Ok (fields_of off c l) else Er short_read).
Proof. intros Hj. exact (read_exact junk Hj f c off last size l w). Qed.

(** C56.  Writing: if nothing larger than what was prepared is written, no byte outside
    the buffer is touched, whatever the file answers. *)
Theorem C56_writes_inside (junk : N -> bytes) (f : fname) (off size : N) (l : given) r :
  memory junk -> room l -> yields (write_records junk f off size l) r -> r <> Er EUB.
Proof. intros Hj. exact (write_inside junk Hj f off size l r). Qed.

(** C56.  If each record is filled, the file is extended by exactly the fields; the
    offsets given out are where the records are. *)
Theorem C56_writes_right (junk : N -> bytes) (f : fname) (c : bytes) (size : N) (l : given) (w : world) :
  memory junk -> full l -> wget w f = Some c ->
  run (write_records junk f (blen c) size l) w =
  (wset w f (Some (c ++ concat (record_bytes l))), Ok (positions (blen c) (record_bytes l))).
Proof. intros Hj. exact (write_exact junk Hj f c size l w). Qed.

Print Assumptions C56_reads_inside.
Print Assumptions C56_reads_right.
Print Assumptions C56_writes_inside.
Print Assumptions C56_writes_right.

(** A buffer of 2 bytes: moving the rest to the front, growing, and a field larger than
    the record, which throws. *)
Definition sevens (n : N) : bytes := repeat 7 (N.to_nat n).
Example C56_sample :
  memory sevens /\
  let w := World (Some [1; 2; 3; 4; 5; 6; 7; 8]) None None in
  small [(1, [1]); (4, [1; 2]); (2, [2])] /\
  run (read_records sevens FDat 1 8 2 [(1, [1]); (4, [1; 2]); (2, [2])]) w =
    (w, Ok [[[2]]; [[3]; [4; 5]]; [[7; 8]]]) /\
  run (read_records sevens FDat 1 8 2 [(1, [1]); (4, [1; 4])]) w = (w, Er EAssert) /\
  full [(1, [[9]]); (4, [[10; 11]; [12; 13]]); (1, [[14]])] /\
  run (write_records sevens FDat 8 2 [(1, [[9]]); (4, [[10; 11]; [12; 13]]); (1, [[14]])]) w =
    (World (Some [1; 2; 3; 4; 5; 6; 7; 8; 9; 10; 11; 12; 13; 14]) None None, Ok [8; 9; 13]).
Proof.
  split; [|vm_compute; repeat split; repeat constructor; discriminate].
  intros n. unfold sevens, blen. rewrite repeat_length. apply Nnat.N2Nat.id.
Qed.

(** Nothing checks the other direction: writing more than prepared leaves the buffer. *)
Example C56_overfull :
  run (write_records sevens FDat 0 2 [(2, [[1; 2; 3]])]) (World (Some []) None None) =
  (World (Some []) None None, Er EUB).
Proof. vm_compute. reflexivity. Qed.
