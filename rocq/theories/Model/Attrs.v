(** What an open store says about its database. *)
From Verif Require Import Model.Bytes Model.Format Model.Bucket Model.Pool Model.Store.

(** appnum(): include/nudb/impl/basic_store.ipp:90-97. *)
Definition store_appnum (s : store) : N := kh_appnum (st_kh s).

(** key_size(): include/nudb/impl/basic_store.ipp:99-106. *)
Definition store_key_size (s : store) : N := kh_key_size (st_kh s).

(** block_size(): include/nudb/impl/basic_store.ipp:108-115. *)
Definition store_block_size (s : store) : N := kh_block_size (st_kh s).
