(** C65: pending values and cached buckets stay intact in memory. *)
From Verif Require Import Model.Bytes Model.Err Model.Arena Model.PoolMem SpecArena SpecPoolMem
  Proofs.PoolMemFacts.

(** C65.  Every call is free of undefined behaviour (no access outside allocated memory,
    no dangling pointer, no double delete), whatever was called before, wherever the
    allocator puts blocks and whichever allocations fail, and has the effect it should. *)
Theorem C65_memory : forall ks bs b s o,
  0 < ks -> size_sane ks -> 0 < bs -> size_sane bs ->
  reached ks bs b s -> mop_sane ks bs o ->
  exists s' a, mstep ks bs o s = Ok (s', a) /\ effect ks bs o s a s'.
Proof. intros ks bs b s o H1 H2 H3 H4. exact (reached_good ks bs H1 H2 H3 H4 b s o). Qed.

(** A pair stays in its pool, with the same bytes, until the pool is cleared or
    exchanged. *)
Theorem C65_pair_kept : forall ks bs b os s s' i k h d,
  0 < ks -> size_sane ks -> 0 < bs -> size_sane bs ->
  reached ks bs b s -> mruns ks bs os s s' -> Forall (fun o => ~ takes_pairs i o) os ->
  sees_pair ks bs s i k (Some (h, d)) -> sees_pair ks bs s' i k (Some (h, d)).
Proof.
  intros ks bs b os s s' i k h d H1 H2 H3 H4. exact (pair_kept ks bs H1 H2 H3 H4 b os s s' i k (h, d)).
Qed.

(** A bucket stays in its cache, with the same bytes, until it is written to or the cache
    is cleared or exchanged. *)
Theorem C65_block_kept : forall ks bs b os s s' i n d,
  0 < ks -> size_sane ks -> 0 < bs -> size_sane bs ->
  reached ks bs b s -> mruns ks bs os s s' -> Forall (fun o => ~ takes_block i n o) os ->
  sees_block ks bs s i n (Some d) -> sees_block ks bs s' i n (Some d).
Proof. intros ks bs b os s s' i n d H1 H2 H3 H4. exact (block_kept ks bs H1 H2 H3 H4 b os s s' i n d). Qed.

(** Two pools and two caches: an insert for which the second allocation fails, one for
    which the map has no room, three that succeed, blocks that lie between them, an
    exchange and a clear. *)
Definition pm_case : list mop :=
  [PInsert 0 7 [5;5] [1;2;3] 4096 3 true;
   PInsert 0 7 [5;5] [1;2;3] 4096 8192 false;
   PInsert 0 7 [5;5] [1;2;3] 8 12288 true;
   PInsert 0 8 [4;9] [6] 16384 20480 true;
   CCreate 0 3 24576 true;
   CInsert 0 4 [9;8] 28672 true;
   PInsert 1 9 [5;5] [4;4;4;4;4;4;4;4;4] 32768 36864 true;
   CWrite 0 3 2 [7;7];
   PSwap 0 1;
   CSwap 0 1;
   PInsert 0 1 [5;4] [3] 40960 45056 true;
   CClear 0;
   PFind 0 [5;4]].

Fixpoint mrun (ks bs : N) (os : list mop) (s : mst) : option (mst * list mans) :=
  match os with
  | [] => Some (s, [])
  | o :: os' =>
    match mstep ks bs o s with
    | Ok (s', a) => match mrun ks bs os' s' with Some (s2, l) => Some (s2, a :: l) | None => None end
    | Er _ => None
    end
  end.

Lemma mrun_mruns ks bs os : forall s s' l, mrun ks bs os s = Some (s', l) ->
  Forall (mop_sane ks bs) os -> ~ In AAbort l -> mruns ks bs os s s'.
Proof.
  induction os as [|o os IH]; cbn [mrun]; intros s s' l E F N.
  - injection E as <- _. constructor.
  - destruct (mstep ks bs o s) as [[s1 a]|] eqn:E1; [|discriminate].
    destruct (mrun ks bs os s1) as [[s2 l2]|] eqn:E2; [|discriminate]. injection E as <- <-.
    inversion F; subst. apply (mruns_cons ks bs o os s s1 a); auto.
    + intros ->. apply N. left. reflexivity.
    + apply (IH s1 s2 l2); auto. intros H. apply N. right. exact H.
Qed.

Example pm_case_sane : Forall (mop_sane 2 8) pm_case.
Proof. repeat constructor; vm_compute; congruence. Qed.

Definition answer (ks bs : N) (o : mop) (s : mst) : option mans :=
  match mstep ks bs o s with Ok (_, a) => Some a | Er _ => None end.

Example pm_case_runs : option_map snd (mrun 2 8 pm_case (mst0 (fun a => a mod 256))) =
  Some [AThrow; AThrow; ADone; ADone; ADone; ADone; ADone; ADone; ADone; ADone; ADone; ADone;
        APair 1 [3]].
Proof. vm_compute. reflexivity. Qed.

(** What the state after these calls shows. *)
Example pm_case_shows :
  match mrun 2 8 pm_case (mst0 (fun a => a mod 256)) with
  | Some (s, _) =>
    (answer 2 8 (PWalk 0) s, answer 2 8 (PWalk 1) s, answer 2 8 (PSize 1) s,
     answer 2 8 (CFind 1 3) s, answer 2 8 (CFind 1 4) s, answer 2 8 (CFind 0 4) s) =
    (Some (AList [([5;4], (1, [3])); ([5;5], (9, [4;4;4;4;4;4;4;4;4]))]),
     Some (AList [([4;9], (8, [6])); ([5;5], (7, [1;2;3]))]), Some (ANum 4),
     Some (ABlock [0;0;7;7;0;0;0;0]), Some (ABlock [9;8;26;27;28;29;30;31]), Some AMiss)
  | None => False
  end.
Proof. vm_compute. reflexivity. Qed.

(** It is one of those that C65_memory speaks of. *)
Example pm_case_reached : exists s l, mrun 2 8 pm_case (mst0 (fun a => a mod 256)) = Some (s, l) /\
  reached 2 8 (fun a => a mod 256) s.
Proof.
  pose proof pm_case_runs as R.
  destruct (mrun 2 8 pm_case (mst0 (fun a => a mod 256))) as [[s l]|] eqn:E; [|discriminate R].
  cbn [option_map snd] in R. injection R as ->. eexists s, _. split; [reflexivity|].
  apply (mruns_reached 2 8 _ pm_case (mst0 (fun a => a mod 256))); [constructor|].
  apply (mrun_mruns 2 8 pm_case _ s _ E pm_case_sane). cbn [In]. intuition discriminate.
Qed.

(** Inserting a key that is there is the only call whose assertion fails. *)
Example pm_duplicate :
  option_map snd (mrun 2 8 [PInsert 0 7 [5;5] [1;2;3] 4096 8192 true; PInsert 0 7 [5;5] [1] 12288 16384 true]
                    (mst0 (fun _ => 0))) = Some [ADone; AAbort].
Proof. vm_compute. reflexivity. Qed.

Print Assumptions C65_memory.
Print Assumptions C65_pair_kept.
Print Assumptions C65_block_kept.
