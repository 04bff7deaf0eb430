(** Facts about pools of pending inserts. *)
From Verif Require Import Model.Bytes Model.Err Model.Field Model.Format Model.Bucket Model.Pool
  Proofs.BytesFacts.
From Coq Require Import Sorting.Sorted Sorting.Permutation.

Definition pkeys (l : list pelem) : list bytes := map pe_key l.

Lemma pmap_find_In l k x : pmap_find l k = Some x -> In x l /\ pe_key x = k.
Proof.
  induction l as [|y l IH]; simpl; [discriminate|].
  destruct (beq (pe_key y) k) eqn:E.
  - intros X; injection X; intros; subst. apply beq_eq in E. auto.
  - intros X. apply IH in X. tauto.
Qed.

Lemma pmap_find_none l k : pmap_find l k = None <-> ~ In k (pkeys l).
Proof.
  induction l as [|y l IH]; simpl; [tauto|].
  destruct (beq (pe_key y) k) eqn:E.
  - apply beq_eq in E. split; [discriminate|tauto].
  - apply beq_neq in E. rewrite IH. tauto.
Qed.

Lemma pmap_insert_perm l x :
  ~ In (pe_key x) (pkeys l) -> Permutation (pmap_insert l x) (x :: l).
Proof.
  induction l as [|y l IH]; simpl; intros Hn; [auto|].
  destruct (blt (pe_key x) (pe_key y)) eqn:E1; [auto|].
  destruct (blt (pe_key y) (pe_key x)) eqn:E2.
  - rewrite IH by tauto. apply perm_swap.
  - exfalso. apply Hn. left. symmetry. apply blt_total; auto.
Qed.

Lemma pmap_insert_present l x :
  StronglySorted (fun a b => blt (pe_key a) (pe_key b) = true) l ->
  In (pe_key x) (pkeys l) -> pmap_insert l x = l.
Proof.
  induction 1 as [|y l Hs IH Hf]; simpl; [tauto|]. intros Hin.
  destruct (blt (pe_key x) (pe_key y)) eqn:E1.
  - exfalso. destruct Hin as [E|Hin].
    + rewrite E, blt_irrefl in E1. discriminate.
    + apply in_map_iff in Hin as (z & Ez & Hz). rewrite Forall_forall in Hf.
      specialize (Hf z Hz). rewrite Ez in Hf. pose proof (blt_trans _ _ _ E1 Hf) as X.
      rewrite blt_irrefl in X. discriminate.
  - destruct (blt (pe_key y) (pe_key x)) eqn:E2; auto.
    rewrite IH; auto. destruct Hin as [E|Hin]; auto. rewrite E, blt_irrefl in E2. discriminate.
Qed.

Lemma pmap_insert_sorted l x :
  StronglySorted (fun a b => blt (pe_key a) (pe_key b) = true) l ->
  StronglySorted (fun a b => blt (pe_key a) (pe_key b) = true) (pmap_insert l x).
Proof.
  induction 1 as [|y l Hs IH Hf]; simpl.
  - repeat constructor.
  - destruct (blt (pe_key x) (pe_key y)) eqn:E1.
    + constructor; [constructor; auto|]. constructor; auto.
      eapply Forall_impl; [|exact Hf]. intros z Hz. eapply blt_trans; eauto.
    + destruct (blt (pe_key y) (pe_key x)) eqn:E2; [|constructor; auto].
      constructor; auto. rewrite Forall_forall in *. intros z Hz.
      assert (X : In z (x :: l)).
      { clear - Hz. induction l as [|u l IH]; simpl in *; auto.
        destruct (blt (pe_key x) (pe_key u)); [simpl in Hz; tauto|].
        destruct (blt (pe_key u) (pe_key x)); simpl in Hz; [|tauto].
        destruct Hz as [->|Hz]; auto. apply IH in Hz. tauto. }
      destruct X as [->|X]; auto.
Qed.
