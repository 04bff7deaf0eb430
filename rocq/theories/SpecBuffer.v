(** What sequential reading and writing of pieces means, without buffers. *)
From Verif Require Import Model.Bytes.

(** Consecutive pieces of [c] from [off] on, of the given sizes. *)
Fixpoint pieces (off : N) (c : bytes) (ns : list N) : list bytes :=
  match ns with
  | [] => []
  | n :: ns' => bsub off n c :: pieces (off + n) c ns'
  end.

Fixpoint total (ns : list N) : N := match ns with [] => 0 | n :: ns' => n + total ns' end.

(** Where pieces begin that are written one after the other from [off] on. *)
Fixpoint positions (off : N) (ds : list bytes) : list N :=
  match ds with
  | [] => []
  | d :: ds' => off :: positions (off + blen d) ds'
  end.

(** Records to read: the size of each, and the sizes of the fields wanted from its
    beginning. *)
Definition wanted := list (N * list N).
(** The fields of the records in [c] from [off] on. *)
Fixpoint fields_of (off : N) (c : bytes) (l : wanted) : list (list bytes) :=
  match l with
  | [] => []
  | (size, ks) :: l => pieces off c ks :: fields_of (off + size) c l
  end.
(** The fields of each record are inside the record. *)
Definition small (l : wanted) : Prop := Forall (fun x => total (snd x) <= fst x) l.

(** Records to write: the size prepared for each, and its fields. *)
Definition given := list (N * list bytes).
Definition record_bytes (l : given) : list bytes := map (fun x => concat (snd x)) l.
(** The fields are not larger than what was prepared; they fill it exactly. *)
Definition room (l : given) : Prop := Forall (fun x => blen (concat (snd x)) <= fst x) l.
Definition full (l : given) : Prop := Forall (fun x => blen (concat (snd x)) = fst x) l.
