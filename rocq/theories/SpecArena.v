(** What a user of the arenas relies on. *)
From Verif Require Import Model.Bytes Model.Err Model.Arena.

(** Calls on numbered arenas.  [at_] of an allocation is where operator new[] puts a new
    block, should one be needed. *)
Inductive aop :=
| AAlloc (i n at_ : N)
| AClear (i : N)
| AHint (i n : N)
| APeriodic (i rate : N)
| ASwap (i j : N)
| AMove (i j : N).

(** Sizes that leave room for a header and rounding within size_t. *)
Definition size_sane (n : N) : Prop := n <= 2 ^ 64 - 32.

Definition sane (o : aop) : Prop :=
  match o with
  | AAlloc _ n _ => 0 < n /\ size_sane n
  | AHint _ n => size_sane n
  | APeriodic _ r => size_sane r
  | _ => True
  end.

(** The allocations that have not been cleared: arena, address, bytes asked for. *)
Definition lives := list (N * (N * N)).

Definition rename (f : N -> N) (l : lives) : lives := map (fun x => (f (fst x), snd x)) l.
Definition drop_owner (i : N) (l : lives) : lives := filter (fun x => negb (fst x =? i)) l.

Definition arena_step (o : aop) (m : mem) (l : lives) : res (mem * lives) :=
  match o with
  | AAlloc i n at_ =>
    match arena_alloc m i n at_ with
    | (m', Ok p) => Ok (m', (i, (p, n)) :: l)
    | (m', Er EThrow) => Ok (m', l)
    | (_, Er e) => Er e
    end
  | AClear i => rbind (arena_clear m i) (fun m' => Ok (m', drop_owner i l))
  | AHint i n => Ok (arena_hint m i n, l)
  | APeriodic i r => Ok (arena_periodic m i r, l)
  | ASwap i j =>
    Ok (arena_swap m i j, rename (fun k => if k =? i then j else if k =? j then i else k) l)
  | AMove i j =>
    rbind (arena_move m i j) (fun m' =>
    Ok (m', rename (fun k => if k =? i then j else k) (drop_owner j l)))
  end.

Fixpoint arena_run (os : list aop) (m : mem) (l : lives) : res (mem * lives) :=
  match os with
  | [] => Ok (m, l)
  | o :: os' => rbind (arena_step o m l) (fun '(m', l') => arena_run os' m' l')
  end.

Definition disjoint (a b : N * N) : Prop := fst a + snd a <= fst b \/ fst b + snd b <= fst a.

Fixpoint pairwise {A} (R : A -> A -> Prop) (l : list A) : Prop :=
  match l with
  | [] => True
  | x :: l' => (forall y, In y l' -> R x y) /\ pairwise R l'
  end.

(** Inside a block that has not been deleted, behind its header, aligned to 8. *)
Definition inside (heap : list (N * N)) (a : N * N) : Prop :=
  exists b, In b heap /\ fst b + elem_size <= fst a /\ fst a + snd a <= fst b + snd b /\
    fst a mod 8 = 0.
