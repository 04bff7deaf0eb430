(** Specification of a store that is used while file operations fail in lookups and inserts. *)
From Verif Require Import Model.Bytes Model.Err Model.IO Model.Bucket Model.Create Model.Store Model.Crash
  Spec Model.History.

(** [worked e a l w s]: the files and the store after create() with the arguments [a], open() and any number of calls.
    In calls of fetch and insert any file operations may fail; a flush, and close() with the open() after it, take place
    where operations may fail as well, and succeed.  [l] are the calls, oldest first, that did not report
    such a failure; those that did leave no trace in it. *)
Inductive worked (e : env) (a : create_args) : list op -> world -> store -> Prop :=
| wk_start w s : lived e a [] w s -> worked e a [] w s
| wk_call l w s c w' s' o :
    worked e a l w s -> do_op e s c w = (w', Some s', o) -> o <> OAborted -> worked e a (l ++ [c]) w' s'
| wk_insert l w s k v S s' w' S' :
    worked e a l w s -> fsteps log_in_order (store_insert e s k v) w S (Ret (Ok s')) w' S' ->
    worked e a (l ++ [OpInsert k v]) w' s'
| wk_flush l w s S s' w' S' :
    worked e a l w s -> fsteps log_in_order (store_flush e s) w S (Ret s') w' S' -> st_ec s' = None ->
    worked e a (l ++ [OpFlush]) w' s'
| wk_reopen l w s S u w1 S1 S2 s' w' S' :
    worked e a l w s -> fsteps log_in_order (store_close e s) w S (Ret (Ok u)) w1 S1 ->
    fsteps log_in_order (store_open e) w1 S2 (Ret (Ok s')) w' S' -> worked e a (l ++ [OpReopen]) w' s'
| wk_insert_fails l w s k v S n w' S' :
    worked e a l w s -> fsteps log_in_order (store_insert e s k v) w S (Ret (Er (EIO n))) w' S' -> worked e a l w' s
| wk_fetch_fails l w s k S n w' S' :
    worked e a l w s -> fsteps log_in_order (store_fetch e s k) w S (Ret (Er (EIO n))) w' S' -> worked e a l w' s.
