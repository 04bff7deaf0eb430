(** The memory arenas of the insert pool and the bucket cache:
    include/nudb/detail/arena.hpp.  Addresses are numbers.  An arena's linked list of
    elements is a list, newest first.  Labels and debug output are left out.  The
    clock is not modelled: periodic_activity takes the measured rate, any number. *)
From Verif Require Import Model.Bytes Model.Err.

(** element: include/nudb/detail/arena.hpp:86-127, at address [sl_base]. *)
Record slab := Slab { sl_base : N; sl_cap : N; sl_used : N }.

(** sizeof(element): three words. *)
Definition elem_size : N := 24.

(** std::size_t arithmetic. *)
Definition szt (x : N) : N := x mod 2 ^ 64.

(** arena_t: include/nudb/detail/arena.hpp:44-48 (label_ and when_ left out). *)
Record arena := Arena { ar_alloc : N; ar_used : N; ar_list : list slab }.

(** arena_t(label): include/nudb/detail/arena.hpp:145-150. *)
Definition arena_new : arena := Arena 0 0 [].

(** The process: its arenas by number, and the blocks (address, size) that operator
    new[] has handed out to them and that have not been deleted. *)
Record mem := Mem { m_arena : N -> arena; m_heap : list (N * N) }.

Definition mem0 : mem := Mem (fun _ => arena_new) [].

Definition set_arena (m : mem) (i : N) (a : arena) : mem :=
  Mem (fun j => if j =? i then a else m_arena m j) (m_heap m).

(** Two blocks have no byte in common. *)
Definition apart (a b : N * N) : bool :=
  (fst a + snd a <=? fst b) || (fst b + snd b <=? fst a).

(** new std::uint8_t[sz], when the allocator would return [at_]: it returns memory
    aligned to 8, below 2^64, and apart from every block in use; when [at_] is not so,
    the allocation fails (std::bad_alloc). *)
Definition new_ok (h : list (N * N)) (sz at_ : N) : bool :=
  (0 <? at_) && (at_ mod 8 =? 0) && (at_ + sz <=? 2 ^ 64) && forallb (apart (at_, sz)) h.

(** delete[]: undefined unless the block is in use. *)
Fixpoint heap_del (h : list (N * N)) (b : N) : res (list (N * N)) :=
  match h with
  | [] => Er EUB
  | x :: h' => if fst x =? b then Ok h' else rbind (heap_del h' b) (fun h'' => Ok (x :: h''))
  end.

(** element::alloc: include/nudb/detail/arena.hpp:129-141. *)
Definition slab_alloc (s : slab) (n : N) : option (slab * N) :=
  if sl_cap s - sl_used s <? n then None
  else Some (Slab (sl_base s) (sl_cap s) (szt (sl_used s + n)), sl_base s + elem_size + sl_used s).

(** alloc: include/nudb/detail/arena.hpp:255-279, on arena [i]; [at_] is where operator
    new[] would put a new block.  bad_alloc leaves the arena as it was (EThrow). *)
Definition arena_alloc (m : mem) (i n at_ : N) : mem * res N :=
  let a := m_arena m i in
  if n =? 0 then (m, Er EAssert) else
  let n := szt (8 * (szt (n + 7) / 8)) in
  let fresh :=
    let size := N.max (ar_alloc a) n in
    let sz := szt (elem_size + size) in
    if new_ok (m_heap m) sz at_ then
      match slab_alloc (Slab at_ size 0) n with
      | Some (s, p) =>
        (Mem (m_arena (set_arena m i (Arena (ar_alloc a) (szt (ar_used a + n)) (s :: ar_list a))))
             ((at_, sz) :: m_heap m), Ok p)
      | None => (m, Er EUB)
      end
    else (m, Er EThrow) in
  match ar_list a with
  | [] => fresh
  | s :: rest =>
    match slab_alloc s n with
    | Some (s', p) => (set_arena m i (Arena (ar_alloc a) (szt (ar_used a + n)) (s' :: rest)), Ok p)
    | None => fresh
    end
  end.

(** The loop of clear: include/nudb/detail/arena.hpp:179-186. *)
Fixpoint del_all (h : list (N * N)) (l : list slab) : res (list (N * N)) :=
  match l with
  | [] => Ok h
  | s :: l' => rbind (heap_del h (sl_base s)) (fun h' => del_all h' l')
  end.

(** clear: include/nudb/detail/arena.hpp:174-187 (also the destructor, 152-157). *)
Definition arena_clear (m : mem) (i : N) : res mem :=
  let a := m_arena m i in
  rbind (del_all (m_heap m) (ar_list a)) (fun h =>
  Ok (Mem (m_arena (set_arena m i (Arena (ar_alloc a) 0 []))) h)).

(** hint: include/nudb/detail/arena.hpp:62-67. *)
Definition arena_hint (m : mem) (i n : N) : mem :=
  let a := m_arena m i in set_arena m i (Arena n (ar_used a) (ar_list a)).

(** periodic_activity: include/nudb/detail/arena.hpp:189-253, when half a second has
    passed and the rate is [rate]. *)
Definition arena_periodic (m : mem) (i rate : N) : mem :=
  let a := m_arena m i in
  let dbl := szt (ar_alloc a * 2) in
  if dbl <=? rate then set_arena m i (Arena (N.max rate dbl) (ar_used a) (ar_list a))
  else if rate <=? ar_alloc a / 2 then set_arena m i (Arena (ar_alloc a / 2) (ar_used a) (ar_list a))
  else m.

(** swap: include/nudb/detail/arena.hpp:281-289. *)
Definition arena_swap (m : mem) (i j : N) : mem :=
  let a := m_arena m i in
  let b := m_arena m j in
  set_arena (set_arena m i (Arena (ar_alloc a) (ar_used b) (ar_list b)))
    j (Arena (ar_alloc b) (ar_used a) (ar_list a)).

(** arena_t(arena_t&&): include/nudb/detail/arena.hpp:159-172: arena [j] is constructed
    from [i].  An arena that was at [j] before is destroyed first. *)
Definition arena_move (m : mem) (i j : N) : res mem :=
  rbind (arena_clear m j) (fun m =>
  let a := m_arena m i in
  Ok (set_arena (set_arena m i arena_new) j a)).
