(** The insert pools and bucket caches in memory: include/nudb/detail/pool.hpp and
    include/nudb/detail/cache.hpp once more, with the bytes of keys, values and buckets
    in blocks of the arenas of Arena.v, reached through pointers.  Allocations may fail
    at any point.  Simplified: std::map is the list of its nodes in order and
    std::unordered_map the list of its nodes in any order (their own memory is not
    modelled, except that emplace may throw); move constructors are left out. *)
From Verif Require Import Model.Bytes Model.Err Model.Arena.

(** pool_t::value_type: include/nudb/detail/pool.hpp:104-126; key and data are
    pointers. *)
Record pnode := PNode { pn_hash : N; pn_size : N; pn_key : N; pn_data : N }.

(** The pools and caches of a process by number.  Pool [i] (include/nudb/detail/pool.hpp:
    33-41) has arena [2 * i], a map and data_size_; cache [i] (include/nudb/detail/
    cache.hpp:64-67) has arena [2 * i + 1] and a map from bucket indexes to pointers.
    [ms_byte] is what each byte of memory holds; for bytes that were never written that
    can be anything. *)
Record mst := MSt {
  ms_mem : mem;
  ms_byte : N -> N;
  ms_pool : N -> list pnode;
  ms_size : N -> N;
  ms_cache : N -> list (N * N) }.

Definition mst0 (b : N -> N) : mst := MSt mem0 b (fun _ => []) (fun _ => 0) (fun _ => []).

Definition upd {A} (f : N -> A) (i : N) (x : A) : N -> A := fun j => if j =? i then x else f j.

(** The [n] bytes at address [p]. *)
Definition peek (b : N -> N) (p n : N) : bytes :=
  map (fun k => b (p + N.of_nat k)) (seq 0 (N.to_nat n)).
Definition poke (b : N -> N) (p : N) (d : bytes) : N -> N :=
  fun a => if (p <=? a) && (a <? p + blen d) then nthN d (a - p) 0 else b a.

(** An access is undefined unless all its bytes are in one block that has not been
    deleted, behind the header the arena keeps there. *)
Definition mapped (h : list (N * N)) (p n : N) : bool :=
  existsb (fun b => (fst b + elem_size <=? p) && (p + n <=? fst b + snd b)) h.
Definition load (s : mst) (p n : N) : res bytes :=
  if mapped (m_heap (ms_mem s)) p n then Ok (peek (ms_byte s) p n) else Er EUB.
Definition store (s : mst) (p : N) (d : bytes) : res mst :=
  if mapped (m_heap (ms_mem s)) p (blen d)
  then Ok (MSt (ms_mem s) (poke (ms_byte s) p d) (ms_pool s) (ms_size s) (ms_cache s))
  else Er EUB.

(** arena_t::alloc on arena [a]. *)
Definition alloc (s : mst) (a n at_ : N) : mst * res N :=
  let '(m, r) := arena_alloc (ms_mem s) a n at_ in
  (MSt m (ms_byte s) (ms_pool s) (ms_size s) (ms_cache s), r).

(** The outcome of a call. *)
Inductive mans :=
| ADone
| AThrow                                      (** std::bad_alloc *)
| AAbort                                      (** a BOOST_ASSERT fails *)
| AMiss                                       (** not found: end() *)
| APair (h : N) (d : bytes)
| AList (l : list (bytes * (N * bytes)))
| ABlock (d : bytes)
| ANum (n : N).

(** Both of a call's outcomes: the process has died (undefined), or the state and the
    answer. *)
Definition mres := res (mst * mans).

Section PM.
(** The key size and block size of the database. *)
Variables ks bs : N.

(** compare (memcmp of the keys): include/nudb/detail/pool.hpp:128-142, in
    std::map::find; every node up to the place of the key is looked at. *)
Fixpoint node_find (s : mst) (l : list pnode) (k : bytes) : res (option pnode) :=
  match l with
  | [] => Ok None
  | x :: l' =>
    rbind (load s (pn_key x) ks) (fun kx =>
    if blt kx k then node_find s l' k
    else if blt k kx then Ok None else Ok (Some x))
  end.

(** std::map::emplace; the flag tells if the node was inserted. *)
Fixpoint node_insert (s : mst) (l : list pnode) (x : pnode) : res (list pnode * bool) :=
  match l with
  | [] => Ok ([x], true)
  | y :: l' =>
    rbind (load s (pn_key x) ks) (fun kx =>
    rbind (load s (pn_key y) ks) (fun ky =>
    if blt kx ky then Ok (x :: l, true)
    else if blt ky kx then rbind (node_insert s l' x) (fun '(l2, b) => Ok (y :: l2, b))
    else Ok (l, false)))
  end.

(** pool_t::insert: include/nudb/detail/pool.hpp:207-225.  [at1] and [at2] are where
    operator new[] would put new blocks, [room] tells if the map can allocate a node.
    BOOST_ASSERT(result.second) is the only use of the flag. *)
Definition mp_insert (s : mst) (i h : N) (k d : bytes) (at1 at2 : N) (room : bool) : mres :=
  match alloc s (2 * i) ks at1 with
  | (s, Er EThrow) => Ok (s, AThrow)
  | (_, Er e) => Er e
  | (s, Ok kp) =>
    match alloc s (2 * i) (blen d) at2 with
    | (s, Er EThrow) => Ok (s, AThrow)
    | (_, Er e) => Er e
    | (s, Ok dp) =>
      rbind (store s kp k) (fun s =>
      rbind (store s dp d) (fun s =>
      if room then
        rbind (node_insert s (ms_pool s i) (PNode h (blen d) kp dp)) (fun '(l, ins) =>
        if negb ins then Ok (s, AAbort)
        else Ok (MSt (ms_mem s) (ms_byte s) (upd (ms_pool s) i l)
                   (upd (ms_size s) i (szt (ms_size s i + blen d))) (ms_cache s), ADone))
      else Ok (s, AThrow)))
    end
  end.

(** pool_t::find and the use of the pair found: include/nudb/detail/pool.hpp:195-205,
    include/nudb/impl/basic_store.ipp:240-250. *)
Definition mp_find (s : mst) (i : N) (k : bytes) : mres :=
  rbind (node_find s (ms_pool s i) k) (fun o =>
  match o with
  | None => Ok (s, AMiss)
  | Some x => rbind (load s (pn_data x) (pn_size x)) (fun d => Ok (s, APair (pn_hash x) d))
  end).

(** Iterating from begin() to end() (include/nudb/detail/pool.hpp:54-64) and using every
    pair, as commit does: include/nudb/impl/basic_store.ipp:622-636. *)
Fixpoint node_walk (s : mst) (l : list pnode) : res (list (bytes * (N * bytes))) :=
  match l with
  | [] => Ok []
  | x :: l' =>
    rbind (load s (pn_key x) ks) (fun k =>
    rbind (load s (pn_data x) (pn_size x)) (fun d =>
    rbind (node_walk s l') (fun r => Ok ((k, (pn_hash x, d)) :: r))))
  end.
Definition mp_walk (s : mst) (i : N) : mres :=
  rbind (node_walk s (ms_pool s i)) (fun l => Ok (s, AList l)).

(** data_size(): include/nudb/detail/pool.hpp:79-84. *)
Definition mp_size (s : mst) (i : N) : mres := Ok (s, ANum (ms_size s i)).

(** pool_t::clear: include/nudb/detail/pool.hpp:177-185. *)
Definition mp_clear (s : mst) (i : N) : mres :=
  rbind (arena_clear (ms_mem s) (2 * i)) (fun m =>
  Ok (MSt m (ms_byte s) (upd (ms_pool s) i []) (upd (ms_size s) i 0) (ms_cache s), ADone)).

(** swap of two pools: include/nudb/detail/pool.hpp:227-236 (key_size_ is the same in
    both). *)
Definition mp_swap (s : mst) (i j : N) : mres :=
  Ok (MSt (arena_swap (ms_mem s) (2 * i) (2 * j)) (ms_byte s)
        (upd (upd (ms_pool s) i (ms_pool s j)) j (ms_pool s i))
        (upd (upd (ms_size s) i (ms_size s j)) j (ms_size s i)) (ms_cache s), ADone).

(** periodic_activity: include/nudb/detail/pool.hpp:187-193. *)
Definition mp_periodic (s : mst) (i rate : N) : mres :=
  Ok (MSt (arena_periodic (ms_mem s) (2 * i) rate) (ms_byte s) (ms_pool s) (ms_size s) (ms_cache s),
      ADone).

(** std::unordered_map::find. *)
Fixpoint idx_find (l : list (N * N)) (n : N) : option N :=
  match l with
  | [] => None
  | (m, p) :: l' => if m =? n then Some p else idx_find l' n
  end.

(** std::unordered_map::emplace: no effect when the index is present. *)
Definition idx_emplace (l : list (N * N)) (n p : N) : list (N * N) :=
  match idx_find l n with Some _ => l | None => (n, p) :: l end.

(** cache_t::create: include/nudb/detail/cache.hpp:197-205; the constructor of bucket
    clears the block (include/nudb/detail/bucket.hpp:195-204). *)
Definition mc_create (s : mst) (i n at_ : N) (room : bool) : mres :=
  match alloc s (2 * i + 1) bs at_ with
  | (s, Er EThrow) => Ok (s, AThrow)
  | (_, Er e) => Er e
  | (s, Ok p) =>
    if room then
      let s := MSt (ms_mem s) (ms_byte s) (ms_pool s) (ms_size s)
                 (upd (ms_cache s) i (idx_emplace (ms_cache s i) n p)) in
      rbind (store s p (zeros bs)) (fun s => Ok (s, ADone))
    else Ok (s, AThrow)
  end.

(** cache_t::insert: include/nudb/detail/cache.hpp:207-218; [d] is what b.write puts
    out, the used part of the bucket. *)
Definition mc_insert (s : mst) (i n : N) (d : bytes) (at_ : N) (room : bool) : mres :=
  match alloc s (2 * i + 1) bs at_ with
  | (s, Er EThrow) => Ok (s, AThrow)
  | (_, Er e) => Er e
  | (s, Ok p) =>
    rbind (store s p d) (fun s =>
    if room then
      Ok (MSt (ms_mem s) (ms_byte s) (ms_pool s) (ms_size s)
            (upd (ms_cache s) i (idx_emplace (ms_cache s i) n p)), ADone)
    else Ok (s, AThrow))
  end.

(** cache_t::find (include/nudb/detail/cache.hpp:185-195) and reading the block of the
    bucket found. *)
Definition mc_find (s : mst) (i n : N) : mres :=
  match idx_find (ms_cache s i) n with
  | None => Ok (s, AMiss)
  | Some p => rbind (load s p bs) (fun d => Ok (s, ABlock d))
  end.

(** Writing [d] at offset [off] of the block of a bucket that is in the cache, as the
    members of bucket_t do: include/nudb/detail/bucket.hpp:290-344. *)
Definition mc_write (s : mst) (i n off : N) (d : bytes) : mres :=
  match idx_find (ms_cache s i) n with
  | None => Ok (s, AMiss)
  | Some p => rbind (store s (p + off) d) (fun s => Ok (s, ADone))
  end.

(** cache_t::clear: include/nudb/detail/cache.hpp:168-175. *)
Definition mc_clear (s : mst) (i : N) : mres :=
  rbind (arena_clear (ms_mem s) (2 * i + 1)) (fun m =>
  Ok (MSt m (ms_byte s) (ms_pool s) (ms_size s) (upd (ms_cache s) i []), ADone)).

(** cache_t::reserve: include/nudb/detail/cache.hpp:159-166; [room] tells if the map can
    allocate its table. *)
Definition mc_reserve (s : mst) (i n : N) (room : bool) : mres :=
  Ok (MSt (arena_hint (ms_mem s) (2 * i + 1) (szt (n * bs))) (ms_byte s) (ms_pool s) (ms_size s)
        (ms_cache s), if room then ADone else AThrow).

(** swap of two caches: include/nudb/detail/cache.hpp:220-229. *)
Definition mc_swap (s : mst) (i j : N) : mres :=
  Ok (MSt (arena_swap (ms_mem s) (2 * i + 1) (2 * j + 1)) (ms_byte s) (ms_pool s) (ms_size s)
        (upd (upd (ms_cache s) i (ms_cache s j)) j (ms_cache s i)), ADone).

End PM.
