(** An insert-only map shared by several threads, saved from time to time by a flush in the
    background, on a machine that may stop at any moment.
    Nothing here depends on the model of NuDB. *)
From Verif Require Import Model.Bytes Spec SpecLin.

(** What is seen of an execution: calls and answers of threads; a flush begins; a flush has
    ended; the machine stops, and the database is opened again. *)
Inductive dev := DEv (v : hev) | DBegin | DEnd | DStop.

(** Executions in which every call takes effect in one instant between being made and being
    answered, and in which
    - a flush that has ended has saved everything that was in the map when it began;
    - after a stop the map is what has been saved, or, if a flush was going on, what was
      in the map when that flush began; the threads start afresh.
    [m] is the map, [d] what has been saved; [o] is the map at the beginning of the flush that
    is going on, if there is one. *)
Inductive datomic : smap -> smap -> option smap -> (N -> lst) -> list dev ->
                    smap -> smap -> option smap -> (N -> lst) -> Prop :=
| da_nil m d o f : datomic m d o f [] m d o f
| da_call m d o f t c h m' d' o' f' :
    f t = LIdle -> datomic m d o (lset f t (LPending c)) h m' d' o' f' ->
    datomic m d o f (DEv (HCall t c) :: h) m' d' o' f'
| da_effect m d o f t c h m' d' o' f' :
    f t = LPending c ->
    datomic (fst (spec_step m c)) d o (lset f t (LDone (snd (spec_step m c)))) h m' d' o' f' ->
    datomic m d o f h m' d' o' f'
| da_ret m d o f t r h m' d' o' f' :
    f t = LDone r -> datomic m d o (lset f t LIdle) h m' d' o' f' ->
    datomic m d o f (DEv (HRet t r) :: h) m' d' o' f'
| da_begin m d f h m' d' o' f' :
    datomic m d (Some m) f h m' d' o' f' ->
    datomic m d None f (DBegin :: h) m' d' o' f'
| da_end m d m1 f h m' d' o' f' :
    datomic m m1 None f h m' d' o' f' ->
    datomic m d (Some m1) f (DEnd :: h) m' d' o' f'
| da_lost m d o f h m' d' o' f' :
    datomic d d None (fun _ => LIdle) h m' d' o' f' ->
    datomic m d o f (DStop :: h) m' d' o' f'
| da_kept m d m1 f h m' d' o' f' :
    datomic m1 m1 None (fun _ => LIdle) h m' d' o' f' ->
    datomic m d (Some m1) f (DStop :: h) m' d' o' f'.

(** The history [h] can be explained that way, starting with an empty database. *)
Definition durably_linearizable (h : list dev) : Prop :=
  exists m d o f, datomic sempty sempty None (fun _ => LIdle) h m d o f.

(** The calls made in a history. *)
Fixpoint dcalls (h : list dev) : list op :=
  match h with
  | [] => []
  | DEv (HCall _ c) :: h' => c :: dcalls h'
  | _ :: h' => dcalls h'
  end.
