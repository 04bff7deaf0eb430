(** Specification of visit(): the records of a data file and the calls that
    visiting them makes; the order in which a history of calls stores values. *)
From Verif Require Import Model.Bytes Model.Err Model.Visit Spec SpecFormat.

(** A record of a data file: a value with its key, or a spill record with
    arbitrary contents. *)
Inductive record := Value (k v : bytes) | Spill (c : bytes).

(** Its bytes: 6 byte value size, key, value; or 6 zero bytes, 2 byte size,
    contents. *)
Definition image (r : record) : bytes :=
  match r with
  | Value k v => be 6 (blen v) ++ k ++ v
  | Spill c => be 6 0 ++ be 2 (blen c) ++ c
  end.

Definition record_ok (key_size : N) (r : record) : Prop :=
  match r with
  | Value k v => blen k = key_size /\ 0 < blen v < 2 ^ 32
  | Spill c => blen c < 2 ^ 16
  end.

(** The values among some records, and among some calls. *)
Fixpoint values (l : list record) : list (bytes * bytes) :=
  match l with
  | [] => []
  | Value k v :: l => (k, v) :: values l
  | Spill _ :: l => values l
  end.
Fixpoint items (l : list vcall) : list (bytes * bytes) :=
  match l with
  | [] => []
  | VItem k v :: l => (k, v) :: items l
  | VProgress _ _ :: l => items l
  end.

(** The calls made for the records [l], the first of which is at offset [off] of
    a file of [total] bytes, after the calls [t]: the callback for every value until
    it reports an error, and progress behind every record. *)
Fixpoint spec_visit (cb : callback) (total off : N) (t : list vcall) (l : list record)
  : list vcall * option err :=
  match l with
  | [] => (t, None)
  | r :: l' =>
    let off' := off + blen (image r) in
    match r with
    | Value k v =>
      match cb t k v with
      | Some er => (t ++ [VItem k v], Some er)
      | None => spec_visit cb total off' (t ++ [VItem k v; VProgress off' total]) l'
      end
    | Spill _ => spec_visit cb total off' (t ++ [VProgress off' total]) l'
    end
  end.

(** The callback reported an error in none of the calls [t]. *)
Definition no_error (cb : callback) (t : list vcall) : Prop :=
  forall t1 k v t2, t = t1 ++ VItem k v :: t2 -> cb t1 k v = None.

(** Reports of progress: never decreasing, never above the total. *)
Fixpoint progress_ok (from total : N) (t : list vcall) : Prop :=
  match t with
  | [] => True
  | VItem _ _ :: t => progress_ok from total t
  | VProgress x y :: t => y = total /\ from <= x <= total /\ progress_ok x total t
  end.

(** Sorted by key. *)
Fixpoint put_sorted (x : bytes * bytes) (l : list (bytes * bytes)) : list (bytes * bytes) :=
  match l with
  | [] => [x]
  | y :: l' => if blt (fst y) (fst x) then y :: put_sorted x l' else x :: l
  end.

(** The values a history writes to the data file, in the order of the file:
    flush by flush, the values of one flush in the order of their keys.  [m] are
    the contents of the database, [p] the values not flushed yet, [d] the values
    written before. *)
Fixpoint written (m : smap) (p d : list (bytes * bytes)) (l : list op) : list (bytes * bytes) :=
  match l with
  | [] => d
  | OpInsert k v :: l' =>
    match m k with
    | Some _ => written m p d l'
    | None => written (sput m k v) (put_sorted (k, v) p) d l'
    end
  | OpFetch _ :: l' => written m p d l'
  | (OpFlush | OpReopen) :: l' => written m [] (d ++ p) l'
  end.
