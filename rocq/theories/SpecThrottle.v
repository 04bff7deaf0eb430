(** Specification of the delays of insert(). *)
From Verif Require Import Model.Bytes Spec Model.Throttle.

(** The calls that have an effect on the database. *)
Fixpoint untimed (l : list tcall) : list op :=
  match l with
  | [] => []
  | TCall c _ _ :: l' => c :: untimed l'
  | TBurst _ :: l' => untimed l'
  end.

(** The answers of these calls. *)
Fixpoint call_answers (l : list tcall) (os : list (out * bool)) : list out :=
  match l, os with
  | TCall _ _ _ :: l', (o, _) :: os' => o :: call_answers l' os'
  | TBurst _ :: l', _ :: os' => call_answers l' os'
  | _, _ => []
  end.

(** The number of bytes of the values of pairs. *)
Definition value_bytes (p : list (bytes * bytes)) : N := fold_right (fun kv n => blen (snd kv) + n) 0 p.

(** For each call, whether its caller may be made to sleep: only by the insertion of a new
    pair, only when the values waiting to be saved and three blocks for each exceed the burst
    size, and only when before, since the database was opened, a batch has been saved of which
    the values and seven blocks for each exceeded the burst size.  [m] are the contents of the
    database, [p] the pairs waiting, [big] whether there has been such a batch. *)
Fixpoint may_sleep (bs : N) (m : smap) (p : list (bytes * bytes)) (burst : N) (big : bool) (l : list tcall)
  : list bool :=
  match l with
  | [] => []
  | TBurst n :: l' => false :: may_sleep bs m p n big l'
  | TCall (OpInsert k v) _ _ :: l' =>
    match m k with
    | Some _ => false :: may_sleep bs m p burst big l'
    | None =>
      (big && (burst <? value_bytes ((k, v) :: p) + 3 * blen ((k, v) :: p) * bs)) ::
      may_sleep bs (sput m k v) ((k, v) :: p) burst big l'
    end
  | TCall (OpFetch _) _ _ :: l' => false :: may_sleep bs m p burst big l'
  | TCall OpFlush _ _ :: l' =>
    false :: may_sleep bs m [] burst (big || (burst <? value_bytes p + 7 * blen p * bs)) l'
  | TCall OpReopen _ _ :: l' => false :: may_sleep bs m [] (4 * 1024 * 1024) false l'
  end.
