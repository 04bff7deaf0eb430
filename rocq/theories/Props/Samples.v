(** Concrete databases used to show that hypotheses of theorems can be met. *)
From Verif Require Import Model.Bytes Model.Err Model.Format Model.IO Model.Bucket Model.Create
  Model.Store Spec Model.History Proofs.BytesFacts.

(** A bad hash function (many collisions), a non-trivial iteration order and
    dirty memory. *)
Definition sample_env : env :=
  Env (fun seed k => 65536 * (fold_left N.add k 0 mod 7) + seed)
      (@rev (N * bytes)) [170; 187; 204; 221; 238; 255; 17; 34; 51; 68].

(** A small block (5 entries) and load factor 1/2. *)
Definition sample_args : create_args := CreateArgs 7 9 11 2 104 (FVal 1 2).

Definition sample_key (i : N) : bytes := [i / 16; i mod 16].
Definition sample_val (i : N) : bytes := [i; 1; 2; i].

(** [n] inserts. *)
Fixpoint sample_inserts (n : nat) : list op :=
  match n with
  | O => []
  | S n' => sample_inserts n' ++ [OpInsert (sample_key (N.of_nat n)) (sample_val (N.of_nat n))]
  end.

(** Two flushes with spills and splits in between, a re-open, pending inserts. *)
Definition sample_life : list op :=
  sample_inserts 30 ++ [OpFlush; OpInsert (sample_key 3) [1]; OpFetch (sample_key 17)] ++
  [OpInsert (sample_key 77) [7; 7]; OpReopen; OpInsert (sample_key 78) [8]; OpFetch [9; 9]].

Lemma sample_args_good : good_args sample_args.
Proof. unfold good_args, sample_args. simpl. lia. Qed.

Lemma sample_env_ok : iter_ok sample_env.
Proof. intros c. apply Permutation_rev. Qed.

Lemma sample_life_valid : Forall (valid_op (ca_key_size sample_args)) sample_life.
Proof. repeat constructor. Qed.

Lemma sample_life_small : small_history sample_life.
Proof. reflexivity. Qed.

(** The sample life runs to its end; its database has several buckets. *)
Lemma sample_lived : exists w s, lived sample_env sample_args sample_life w s /\ st_buckets s = 13.
Proof.
  unfold lived.
  destruct (life sample_env sample_args sample_life) as [[w [s|]] os] eqn:E.
  - exists w, s. split; [eauto|].
    assert (X : match snd (fst (life sample_env sample_args sample_life)) with
                | Some s => st_buckets s | None => 0 end = 13) by (vm_compute; reflexivity).
    rewrite E in X. exact X.
  - exfalso. assert (X : match snd (fst (life sample_env sample_args sample_life)) with
                | Some s => true | None => false end = true) by (vm_compute; reflexivity).
    rewrite E in X. discriminate.
Qed.

(** Comparing files by computation. *)
Definition obeq (a b : option bytes) : bool :=
  match a, b with Some x, Some y => beq x y | None, None => true | _, _ => false end.
Definition differ (a b : option bytes) : bool := negb (obeq a b).
Lemma obeq_eq a b : obeq a b = true -> a = b.
Proof. destruct a, b; simpl; intros; try discriminate; auto. f_equal. apply beq_eq. auto. Qed.
Lemma differ_irrefl a : differ a a = true -> False.
Proof. unfold differ, obeq. destruct a; [rewrite beq_refl|]; discriminate. Qed.
Lemma differ_neq a b : differ a b = true -> a <> b.
Proof. intros H ->. revert H. apply differ_irrefl. Qed.
Definition same_result (a b : world * res unit) : bool :=
  match a, b with
  | (w, Ok _), (w', Ok _) =>
    obeq (w_dat w) (w_dat w') && obeq (w_key w) (w_key w') && obeq (w_log w) (w_log w')
  | _, _ => false
  end.
Lemma same_result_eq a b : same_result a b = true -> a = b.
Proof.
  destruct a as [[d k l] [[]|]], b as [[d' k' l'] [[]|]]; simpl; intros H; try discriminate.
  apply andb_prop in H as [H H3]. apply andb_prop in H as [H1 H2].
  apply obeq_eq in H1, H2, H3. subst. reflexivity.
Qed.
