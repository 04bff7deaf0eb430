(** C27: memory of pending inserts and cached buckets. *)
From Verif Require Import Model.Bytes Model.Err Model.Arena SpecArena Proofs.ArenaFacts.

(** C27.  For any sequence of calls on any number of arenas, wherever operator new[] puts
    the blocks and whenever it fails: no call is undefined (no block is deleted twice),
    and the allocations made and not yet cleared are pairwise disjoint, aligned to 8,
    and inside blocks that have not been deleted, which are disjoint themselves.  Every
    block that has not been deleted still belongs to an arena. *)
Theorem C27_allocations : forall os, Forall sane os ->
  exists m live, arena_run os mem0 [] = Ok (m, live) /\
    pairwise (fun x y => disjoint (snd x) (snd y)) live /\
    (forall x, In x live -> inside (m_heap m) (snd x)) /\
    pairwise disjoint (m_heap m) /\
    (forall b, In b (m_heap m) -> exists i s, In s (ar_list (m_arena m i)) /\
       b = (sl_base s, elem_size + sl_cap s)).
Proof.
  intros os Hs. destruct (run_ok os Hs mem0 [] ainv0) as (m & l & E & I).
  exists m, l. split; auto. split; [apply I|]. split; [apply (ainv_inside m l I)|].
  split; [apply I|apply (ai_own _ _ I)].
Qed.

(** An allocation is only refused when operator new[] fails; otherwise it is recorded as
    live until its arena is cleared, and the other allocations stay. *)
Theorem C27_alloc_step : forall os m live i n at_,
  Forall sane os -> arena_run os mem0 [] = Ok (m, live) -> 0 < n -> size_sane n ->
  match arena_alloc m i n at_ with
  | (m', Ok p) =>
      arena_step (AAlloc i n at_) m live = Ok (m', (i, (p, n)) :: live) /\
      forall x, In x live -> disjoint (p, n) (snd x)
  | (m', Er e) => e = EThrow /\ m' = m
  end.
Proof.
  intros os m live i n at_ Hs E Hn Hz.
  destruct (run_ok os Hs mem0 [] ainv0) as (m1 & l1 & E1 & I). rewrite E in E1. injection E1 as <- <-.
  pose proof (alloc_ok m live i n at_ I Hn Hz) as A.
  destruct (arena_alloc m i n at_) as [m' [p|e]] eqn:Ea.
  - split; [unfold arena_step; rewrite Ea; auto|]. intros x Hx.
    destruct (ai_pair _ _ A) as [P _]. exact (P x Hx).
  - destruct A as [-> A]. split; auto. clear - Ea. unfold arena_alloc in Ea.
    destruct (n =? 0); [congruence|]. cbv zeta in Ea.
    destruct (ar_list (m_arena m i)) as [|s r].
    + destruct (new_ok _ _ _); [|congruence]. destruct (slab_alloc _ _) as [[? ?]|]; congruence.
    + destruct (slab_alloc s _) as [[? ?]|]; [congruence|].
      destruct (new_ok _ _ _); [|congruence]. destruct (slab_alloc _ _) as [[? ?]|]; congruence.
Qed.

(** clear() frees the memory of its arena and nothing else. *)
Theorem C27_clear : forall os m live i,
  Forall sane os -> arena_run os mem0 [] = Ok (m, live) ->
  exists m', arena_step (AClear i) m live = Ok (m', drop_owner i live) /\
    ar_list (m_arena m' i) = [] /\ (forall j, j <> i -> m_arena m' j = m_arena m j).
Proof.
  intros os m live i Hs E.
  destruct (run_ok os Hs mem0 [] ainv0) as (m1 & l1 & E1 & I). rewrite E in E1. injection E1 as <- <-.
  destruct (clear_ok m live i I) as (m' & Ec & _ & La & Lo & _).
  exists m'. split; [unfold arena_step; rewrite Ec; reflexivity|]. auto.
Qed.

(** The bound on the sizes is needed: rounding a size of 2^64 - 3 up wraps around to 0,
    and the caller gets a pointer with no memory behind it. *)
Theorem C27_size_wraps_refuted :
  exists os m live, arena_run os mem0 [] = Ok (m, live) /\
    ~ (forall x, In x live -> inside (m_heap m) (snd x)).
Proof.
  exists [AAlloc 0 (2 ^ 64 - 3) 4096]. eexists. eexists. split; [vm_compute; reflexivity|].
  intros H. destruct (H _ (or_introl eq_refl)) as (b & [<-|[]] & H1 & H2 & H3).
  cbn [fst snd] in *. lia.
Qed.

(** Two pools exchanging their memory, as in flush, with a failing allocation. *)
Definition arena_case : list aop :=
  [AHint 0 64; AAlloc 0 5 4096; AAlloc 0 40 9999; AAlloc 0 100 8192; AAlloc 0 3 7;
   AAlloc 1 9 4100; AAlloc 1 9 4096; AAlloc 1 9 12288; ASwap 0 1; AAlloc 0 16 0;
   AClear 1; APeriodic 0 1000; AAlloc 0 900 4096; AMove 0 2].

Example arena_case_sane : Forall sane arena_case.
Proof. repeat constructor; cbn; unfold size_sane; lia. Qed.

Example arena_case_runs :
  match arena_run arena_case mem0 [] with
  | Ok (m, live) => live = [(2, (4120, 900)); (2, (12312, 9))] /\
      m_heap m = [(4096, 1024); (12288, 40)]
  | Er _ => False
  end.
Proof. vm_compute. auto. Qed.

Print Assumptions C27_allocations.
Print Assumptions C27_alloc_step.
Print Assumptions C27_clear.
Print Assumptions C27_size_wraps_refuted.
