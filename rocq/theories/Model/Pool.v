(** Pending inserts and cached buckets:
    include/nudb/detail/pool.hpp, include/nudb/detail/cache.hpp. *)
From Verif Require Import Model.Bytes Model.Err Model.Field Model.Format Model.Bucket.

(** pool_t::value_type: include/nudb/detail/pool.hpp:104-126 (size is the length
    of data).  Keys are byte strings of length key_size. *)
Record pelem := PElem { pe_hash : N; pe_key : bytes; pe_data : bytes }.

(** pool_t: include/nudb/detail/pool.hpp:28-41.  std::map ordered by memcmp on
    the key is a list sorted by key.  The arena is modelled in Arena.v. *)
Record pool := Pool { pl_map : list pelem; pl_data_size : N }.

(** Empty pool: constructor and clear(), include/nudb/detail/pool.hpp:168-185. *)
Definition pool_empty : pool := Pool [] 0.

(** empty(): include/nudb/detail/pool.hpp:66-70. *)
Definition pool_is_empty (p : pool) : bool :=
  match pl_map p with [] => true | _ => false end.

(** std::map::find with the memcmp order: include/nudb/detail/pool.hpp:195-205. *)
Fixpoint pmap_find (l : list pelem) (k : bytes) : option pelem :=
  match l with
  | [] => None
  | x :: l' => if beq (pe_key x) k then Some x else pmap_find l' k
  end.

(** find(): include/nudb/detail/pool.hpp:195-205. *)
Definition pool_find (p : pool) (k : bytes) : option pelem := pmap_find (pl_map p) k.

(** std::map::emplace: no effect when the key is present. *)
Fixpoint pmap_insert (l : list pelem) (x : pelem) : list pelem :=
  match l with
  | [] => [x]
  | y :: l' =>
    if blt (pe_key x) (pe_key y) then x :: l
    else if blt (pe_key y) (pe_key x) then y :: pmap_insert l' x
    else l
  end.

(** insert(): include/nudb/detail/pool.hpp:207-225. *)
Definition pool_insert (p : pool) (h : N) (k d : bytes) : pool :=
  Pool (pmap_insert (pl_map p) (PElem h k d)) (pl_data_size p + blen d).

(** cache_t: include/nudb/detail/cache.hpp:24-67; std::unordered_map from bucket
    index to blob, as an association list.  Iteration order is chosen by
    [e_iter]. *)
Definition cache := list (N * bytes).

(** find(): include/nudb/detail/cache.hpp:185-195. *)
Fixpoint cache_find (c : cache) (n : N) : option bytes :=
  match c with
  | [] => None
  | (m, p) :: c' => if m =? n then Some p else cache_find c' n
  end.

(** emplace of a new index, or writing through the bucket handle returned by
    find/insert/create (in C++ the handle points to the blob owned by the map;
    here the modified blob is stored back). *)
Fixpoint cache_set (c : cache) (n : N) (p : bytes) : cache :=
  match c with
  | [] => [(n, p)]
  | (m, q) :: c' => if m =? n then (n, p) :: c' else (m, q) :: cache_set c' n p
  end.

(** insert(n, b): include/nudb/detail/cache.hpp:207-218; copies only
    actual_size() bytes into fresh memory. *)
Definition cache_blob (e : env) (b : bucket) : bytes :=
  bwrite 0 (bk_compact b) (fresh e (bk_bs b)).
