(** C74: errors are told apart. *)
From Coq Require Import String.
From Verif Require Import Model.Bytes Model.Err Model.ErrorCode.
Local Open Scope string_scope.

(** The errors of the library, by name. *)
Definition all_errors : list err :=
  [key_not_found; key_exists; short_read; log_file_exists; no_key_file; too_many_buckets; not_data_file; not_key_file; not_log_file; different_version; invalid_key_size; invalid_block_size; short_key_file; short_bucket; short_spill; short_data_record; short_value; hash_mismatch; invalid_load_factor; invalid_capacity; invalid_bucket_count; invalid_bucket_size; incomplete_data_file_header; incomplete_key_file_header; invalid_log_record; invalid_log_spill; invalid_log_offset; invalid_log_index; invalid_spill_size; uid_mismatch; appnum_mismatch; key_size_mismatch; salt_mismatch; pepper_mismatch; block_size_mismatch; orphaned_value; missing_value; size_mismatch; duplicate_value].

Lemma all_errors_all e v : value_of e = Some v -> In e all_errors.
Proof. destruct e; cbn [value_of]; intros H; try discriminate H; unfold all_errors; cbn [In]; tauto. Qed.

Lemma no_two {A} (eqb : A -> A -> bool) (f : err -> A) : (forall x y, x = y -> eqb x y = true) ->
  forallb (fun a => forallb (fun b => negb (eqb (f a) (f b)) ||
    match value_of a, value_of b with Some x, Some y => (x =? y)%Z | _, _ => false end) all_errors) all_errors = true ->
  forall a b, In a all_errors -> In b all_errors -> f a = f b ->
  match value_of a, value_of b with Some x, Some y => x = y | _, _ => False end.
Proof.
  intros He H a b Ha Hb Hf. rewrite forallb_forall in H. specialize (H a Ha). rewrite forallb_forall in H.
  specialize (H b Hb). rewrite (He _ _ Hf) in H. cbn [negb orb] in H.
  destruct (value_of a), (value_of b); try discriminate H. apply Z.eqb_eq. exact H.
Qed.

(** Each error has its own value, which is not 0: as codes they are errors, compare equal
    only to themselves, and not to a code of another category. *)
Theorem C74_codes : forall a va, value_of a = Some va ->
  ec_failed (make_error_code va) = true /\
  (forall b vb, value_of b = Some vb -> code_eq (make_error_code va) (make_error_code vb) = true -> a = b) /\
  forall c, code_eq c (make_error_code va) = true -> c = make_error_code va.
Proof.
  intros a va Ha. split; [|split].
  - destruct a; try discriminate Ha; injection Ha as <-; reflexivity.
  - intros b vb Hb H. unfold code_eq, make_error_code in H. cbn in H. apply andb_prop in H as [H _]. apply Z.eqb_eq in H.
    subst vb. destruct a; try discriminate Ha; injection Ha as <-; destruct b; try discriminate Hb; reflexivity.
  - intros [v c] H. unfold code_eq, make_error_code in *. cbn in H. apply andb_prop in H as [H1 H2]. apply Z.eqb_eq in H1.
    subst. destruct c; try discriminate H2. reflexivity.
Qed.

(** Two codes of whatever categories are equal only if both value and category are. *)
Theorem C74_equality : forall c d, code_eq c d = true <-> c = d.
Proof.
  intros [v c] [x d]. unfold code_eq. cbn [ec_value ec_cat]. rewrite Bool.andb_true_iff, Z.eqb_eq. split.
  - intros [-> H]. destruct c, d; try discriminate H; reflexivity.
  - intros H. assert (v = x /\ c = d) as [-> ->] by (split; congruence). destruct d; split; reflexivity.
Qed.

(** No error of the library is taken for a missing file (or for any other condition of the
    system), although key_exists has the number of ENOENT; a code is taken for a missing file
    exactly if the system said so. *)
Theorem C74_missing_file : forall sys,
  (forall v d, cd_cat d <> CNudb -> code_is sys (make_error_code v) d = false) /\
  (forall c, code_is sys c no_such_file = true <->
    (ec_cat c = CGeneric /\ ec_value c = 2%Z) \/ (ec_cat c = CSystem /\ sys (ec_value c) = Some 2%Z)) /\
  value_of key_exists = Some (cd_value no_such_file).
Proof.
  intros sys. split; [|split; [|reflexivity]].
  - intros v [x c] Hc. cbn [cd_cat] in Hc. unfold code_is, make_error_code, equivalent_cond, equivalent_code. cbn [ec_cat ec_value cd_cat cd_value].
    destruct c; [contradiction Hc; reflexivity| |]; cbn [same_cat]; rewrite !Bool.andb_false_r; reflexivity.
  - intros [v c]. unfold code_is, equivalent_cond, equivalent_code, no_such_file, default_condition, cond_eq.
    cbn [ec_cat ec_value cd_cat cd_value]. destruct c; cbn [same_cat cd_cat cd_value].
    + rewrite !Bool.andb_false_r. split; [discriminate|intros [[H _]|[H _]]; discriminate H].
    + rewrite !Bool.andb_true_r, Bool.orb_diag. rewrite Z.eqb_eq. split; [auto|intros [[_ H]|[H _]]; [exact H|discriminate H]].
    + rewrite Bool.andb_false_r, Bool.orb_false_r. split.
      * intros H. right. split; [reflexivity|]. destruct (sys v) as [g|]; cbn [cd_value cd_cat same_cat] in H.
        -- rewrite Bool.andb_true_r in H. apply Z.eqb_eq in H. subst. reflexivity.
        -- rewrite Bool.andb_false_r in H. discriminate H.
      * intros [[H _]|[_ H]]; [discriminate H|]. rewrite H. reflexivity.
Qed.

(** As a condition an error matches its own code and no other. *)
Theorem C74_condition : forall sys a va c, value_of a = Some va ->
  (code_is sys c (ECond va CNudb) = true <-> c = make_error_code va) /\
  default_condition sys CNudb va = ECond va CNudb.
Proof.
  intros sys a va [v c] _. split; [|reflexivity]. unfold code_is, equivalent_cond, equivalent_code, default_condition, cond_eq, make_error_code.
  cbn [ec_cat ec_value cd_cat cd_value]. destruct c; cbn [same_cat].
  - rewrite !Bool.andb_true_r. rewrite Bool.orb_true_iff, !Z.eqb_eq. split; [intros [->| ->]; reflexivity|intros H; injection H; auto].
  - cbn [cd_value cd_cat same_cat]. rewrite !Bool.andb_false_r. split; [discriminate|intros H; discriminate H].
  - destruct (sys v); cbn [cd_value cd_cat same_cat]; rewrite !Bool.andb_false_r; (split; [discriminate|intros H; discriminate H]).
Qed.

(** No two errors have the same message. *)
Theorem C74_messages_partial : forall a b va vb, value_of a = Some va -> value_of b = Some vb ->
  message va = message vb -> a = b.
Proof.
  intros a b va vb Ha Hb H. pose proof (C74_codes a va Ha) as (_ & C & _). apply (C b vb Hb).
  pose proof (no_two String.eqb (fun e => match value_of e with Some v => message v | None => "" end)) as N.
  assert (E : va = vb).
  { specialize (N (fun x y E => proj2 (String.eqb_eq x y) E) ltac:(vm_compute; reflexivity) a b (all_errors_all a va Ha) (all_errors_all b vb Hb)).
    cbv beta in N. rewrite Ha, Hb in N. exact (N H). }
  subst. unfold code_eq, make_error_code. cbn. rewrite Z.eqb_refl. reflexivity.
Qed.

(** But success has the message of an error; so has every number that is not an error. *)
Theorem C74_success_message_refuted :
  ec_failed (make_error_code 0) = false /\ value_of key_not_found = Some 1%Z /\ message 0 = message 1 /\
  forall v, (v < 0 \/ 39 < v)%Z -> message v = message 1.
Proof.
  split; [reflexivity|]. split; [reflexivity|]. split; [reflexivity|]. intros v [H|H].
  - destruct v; try lia. reflexivity.
  - destruct v as [|q|q]; try lia. do 6 (destruct q; try lia; try reflexivity).
Qed.

(** A case: the code of a missing file from the system, and key_exists. *)
Example C74_case :
  let sys v := if (v =? 2)%Z || (v =? 17)%Z then Some v else None in
  code_is sys (ECode 2 CSystem) no_such_file = true /\ code_is sys (ECode 17 CSystem) no_such_file = false /\
  code_is sys (make_error_code 2) no_such_file = false /\ message 2 = "key already exists" /\
  List.length all_errors = 39%nat.
Proof. repeat split. Qed.

Print Assumptions C74_codes.
Print Assumptions C74_equality.
Print Assumptions C74_missing_file.
Print Assumptions C74_condition.
Print Assumptions C74_messages_partial.
Print Assumptions C74_success_message_refuted.
