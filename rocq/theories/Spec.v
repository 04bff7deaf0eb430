(** Specification: an insert-only map from keys to values.

    Nothing here depends on the model of NuDB (only on byte strings). *)
From Verif Require Import Model.Bytes.

(** Contents of a database: at most one value per key. *)
Definition smap := bytes -> option bytes.
Definition sempty : smap := fun _ => None.
Definition sput (m : smap) (k v : bytes) : smap := fun k' => if beq k k' then Some v else m k'.

(** Calls a user makes on an open store.  [OpReopen] is close() then open(). *)
Inductive op :=
| OpInsert (k v : bytes)
| OpFetch (k : bytes)
| OpFlush
| OpReopen.

(** Observable answers.  [OOther] stands for any answer the specification never
    gives (I/O or corruption errors). *)
Inductive out := OInserted | OKeyExists | OFound (v : bytes) | ONotFound | ODone | OOther | OAborted.

(** What each call must do and answer. *)
Definition spec_step (m : smap) (c : op) : smap * out :=
  match c with
  | OpInsert k v =>
    match m k with
    | Some _ => (m, OKeyExists)
    | None => (sput m k v, OInserted)
    end
  | OpFetch k =>
    match m k with
    | Some v => (m, OFound v)
    | None => (m, ONotFound)
    end
  | OpFlush | OpReopen => (m, ODone)
  end.

Fixpoint spec_outs (m : smap) (l : list op) : list out :=
  match l with
  | [] => []
  | c :: l' => let '(m', o) := spec_step m c in o :: spec_outs m' l'
  end.

(** Final contents. *)
Fixpoint spec_final (m : smap) (l : list op) : smap :=
  match l with
  | [] => m
  | c :: l' => spec_final (fst (spec_step m c)) l'
  end.

(** Contents at the last completed flush (or re-open); [m] are the contents and
    [d] the flushed contents before the calls [l]. *)
Fixpoint spec_durable (m d : smap) (l : list op) : smap :=
  match l with
  | [] => d
  | c :: l' =>
    let m' := fst (spec_step m c) in
    spec_durable m' (match c with OpFlush | OpReopen => m' | _ => d end) l'
  end.

(** Number of successful inserts among some answers. *)
Fixpoint inserted (os : list out) : N :=
  match os with [] => 0 | OInserted :: os' => 1 + inserted os' | _ :: os' => inserted os' end.

(** Documented preconditions of the calls (doc of basic_store::insert and fetch:
    keys have the size given at creation, values have 1 to 2^32-1 bytes). *)
Definition valid_op (key_size : N) (c : op) : Prop :=
  match c with
  | OpInsert k v => blen k = key_size /\ 0 < blen v /\ blen v < 4294967296
  | OpFetch k => blen k = key_size
  | OpFlush | OpReopen => True
  end.

(** Number of inserts in a history and the bytes of key and value they carry. *)
Definition op_inserts (c : op) : N := match c with OpInsert _ _ => 1 | _ => 0 end.
Definition op_bytes (c : op) : N := match c with OpInsert k v => 6 + blen k + blen v | _ => 0 end.
Fixpoint inserts (l : list op) : N :=
  match l with [] => 0 | c :: l' => op_inserts c + inserts l' end.
Fixpoint insert_bytes (l : list op) : N :=
  match l with [] => 0 | c :: l' => op_bytes c + insert_bytes l' end.

(** A history after which the data file surely is below the 2^48 bytes the file
    format can address. *)
Definition small_history (l : list op) : Prop :=
  92 + insert_bytes l + 65544 * (inserts l * inserts l) < 281474976710648.
