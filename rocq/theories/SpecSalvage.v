(** Specification: what a data file alone gives. *)
From Verif Require Import Model.Bytes Model.Err Model.IO Model.Bucket Model.Store Model.History Model.Rekey.

(** rekey() of [d], then open(): the store has the pairs [l] and no others; or rekey() aborts near the limit. *)
Definition serves (e : env) (r : rekey_args) (d : bytes) (ks : N) (l : list (bytes * bytes)) : Prop :=
  (exists w1 t w2 s2, run (rekey e r) (World (Some d) None None) = (w1, Ok t) /\
     run (store_open e) w1 = (w2, Ok s2) /\
     (forall k v, In (k, v) l -> snd (run (store_fetch e s2 k) w2) = Ok v) /\
     (forall k, blen k = ks -> ~ In k (map fst l) -> snd (run (store_fetch e s2 k) w2) = Er key_not_found)) \/
  (exists w1, run (rekey e r) (World (Some d) None None) = (w1, Er EAssert) /\ near_limit w1).
