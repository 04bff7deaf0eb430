(** The attributes of a database. *)
From Verif Require Import Model.Bytes Model.Create Model.Rekey Model.RekeyLife Spec.

(** The block size after some calls and rekeys: that of the last rekey, if any. *)
Fixpoint last_block_size (bs : N) (l : list xop) : N :=
  match l with
  | [] => bs
  | XCall _ :: l' => last_block_size bs l'
  | XRekey r :: l' => last_block_size (ra_block_size r) l'
  end.

(** The pairs that are in [m] but not in [d]. *)
Definition unsaved (m d : smap) : smap :=
  fun k => match d k with Some _ => None | None => m k end.
