(** The pool as a map. *)
From Verif Require Import Model.Bytes Model.Err Model.Field Model.Format Model.Bucket Model.Pool
  Proofs.BytesFacts Proofs.PoolFacts.
From Coq Require Import Sorting.Sorted Sorting.Permutation.

Definition pins (p : pool) (x : N * bytes * bytes) : pool :=
  let '(h, k, d) := x in pool_insert p h k d.
Definition tripl (x : pelem) : N * bytes * bytes := (pe_hash x, pe_key x, pe_data x).
Definition key3 (x : N * bytes * bytes) : bytes := snd (fst x).

Lemma pool_fill l : forall p,
  NoDup (map key3 l ++ pkeys (pl_map p)) ->
  StronglySorted (fun a b => blt (pe_key a) (pe_key b) = true) (pl_map p) ->
  let q := fold_left pins l p in
  Permutation (map tripl (pl_map q)) (map tripl (pl_map p) ++ l) /\
  StronglySorted (fun a b => blt (pe_key a) (pe_key b) = true) (pl_map q) /\
  pl_data_size q = pl_data_size p + fold_right (fun x n => blen (snd x) + n) 0 l.
Proof.
  induction l as [|[[h k] d] l IH]; intros p Hn Hs q.
  - unfold q. simpl. rewrite app_nil_r. splits; auto. lia.
  - unfold q. cbn [fold_left pins]. simpl map in Hn. inversion Hn as [|? ? Hni Hn']; subst.
    assert (Hk : ~ In k (pkeys (pl_map p))) by (intros X; apply Hni, in_or_app; auto).
    pose proof (pmap_insert_perm (pl_map p) (PElem h k d) Hk) as Hp.
    destruct (IH (pool_insert p h k d)) as (I1 & I2 & I3).
    + unfold pool_insert. cbn [pl_map].
      eapply Permutation_NoDup; [|exact Hn].
      unfold pkeys. rewrite Hp. cbn [map pe_key key3 fst snd].
      apply Permutation_middle.
    + apply pmap_insert_sorted; auto.
    + splits; auto.
      * rewrite I1. unfold pool_insert. cbn [pl_map]. rewrite Hp. cbn [map tripl pe_hash pe_key pe_data].
        apply Permutation_middle.
      * rewrite I3. unfold pool_insert. cbn [pl_data_size fold_right snd]. lia.
Qed.

Lemma pool_is_map l :
  NoDup (map (fun x => snd (fst x)) l) ->
  let p := fold_left (fun p x => let '(h, k, d) := x in pool_insert p h k d) l pool_empty in
  (forall h k d, pool_find p k = Some (PElem h k d) <-> In (h, k, d) l) /\
  (forall k, pool_find p k = None <-> ~ In k (map (fun x => snd (fst x)) l)) /\
  pl_data_size p = fold_right (fun x n => blen (snd x) + n) 0 l /\
  StronglySorted (fun a b => blt (pe_key a) (pe_key b) = true) (pl_map p) /\
  Permutation (map (fun x => (pe_hash x, pe_key x, pe_data x)) (pl_map p)) l /\
  (pool_is_empty p = true <-> l = []).
Proof.
  intros Hn p. destruct (pool_fill l pool_empty) as (I1 & I2 & I3).
  { simpl. rewrite app_nil_r. exact Hn. }
  { constructor. }
  change (fold_left pins l pool_empty) with p in *. simpl app in I1. rewrite N.add_0_l in I3.
  assert (Hk : Permutation (pkeys (pl_map p)) (map (fun x => snd (fst x)) l)).
  { change (map (fun x => snd (fst x)) l) with (map key3 l). rewrite <- I1, map_map. reflexivity. }
  assert (Hnd : NoDup (pkeys (pl_map p))) by (eapply Permutation_NoDup; [symmetry; exact Hk|exact Hn]).
  assert (Hin : forall x, In x (pl_map p) -> pmap_find (pl_map p) (pe_key x) = Some x).
  { clear - Hnd. generalize dependent (pl_map p). intros m Hnd. induction m as [|y m IH]; simpl; [tauto|].
    inversion Hnd as [|? ? A B]; subst. intros x [->|Hx].
    - rewrite beq_refl. auto.
    - destruct (beq (pe_key y) (pe_key x)) eqn:E; auto.
      apply beq_eq in E. exfalso. apply A. rewrite E. apply in_map; auto. }
  splits; auto.
  - intros h k d. split.
    + intros X. apply pmap_find_In in X as [X _]. eapply Permutation_in; [exact I1|].
      apply (in_map tripl) in X. exact X.
    + intros X. apply (Permutation_in (l' := map tripl (pl_map p))) in X; [|symmetry; exact I1].
      apply in_map_iff in X as ([h' k' d'] & E & Hx). inversion E; subst. apply (Hin _ Hx).
  - intros k. unfold pool_find. rewrite pmap_find_none. split; intros X Y; apply X.
    + eapply Permutation_in; [symmetry; exact Hk|exact Y].
    + eapply Permutation_in; [exact Hk|exact Y].
  - unfold pool_is_empty. split.
    + destruct (pl_map p); [|discriminate]. intros _. apply Permutation_nil in I1. auto.
    + intros ->. apply Permutation_sym, Permutation_nil in I1. destruct (pl_map p); auto. discriminate.
Qed.
