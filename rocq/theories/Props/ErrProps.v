(** C66: which errors each function may report, whatever the files hold and whatever
    happens to the file operations. *)
From Verif Require Import Model.Bytes Model.Err Model.Field Model.Format Model.IO Model.BulkIO
  Model.Bucket Model.Pool Model.Recover Model.Create Model.Store Model.Visit Model.Verify Model.Rekey
  SpecErr Proofs.ErrFacts Props.Samples.
Open Scope N_scope.

Theorem C66_files : forall e a ra buf,
  only create_errs (create e a) /\ only recover_errs (recover e) /\
  only rekey_errs (rekey e ra) /\ only verify_errs (verify e buf).
Proof.
  intros e a ra buf. split; [|split; [|split]]; apply errs_only.
  - apply errs_create.
  - apply errs_recover.
  - apply errs_rekey.
  - apply errs_verify.
Qed.

(** open() reports what recover() reports.  A store in use reports key_not_found from
    fetch, key_exists from insert, and the error a flush has met. *)
Theorem C66_store : forall e,
  only recover_errs (store_open e) /\
  forall s, used e s ->
    (forall k, only fetch_errs (store_fetch e s k)) /\
    (forall k v, only insert_errs (store_insert e s k v)) /\
    only flush_errs (store_close e s).
Proof.
  intros e. split; [apply errs_only, errs_open|]. intros s U. pose proof (used_ec e s U) as H.
  split; [|split]; intros; [apply fetch_only|apply insert_only|apply close_only]; exact H.
Qed.

(** visit() reports what its callback sets, or that the header of the data file is wrong. *)
Theorem C66_visit : forall cb l t er,
  (forall t k v er, cb t k v = Some er -> In er l) ->
  may_end (visit cb) (Er er) \/ may_end (visit cb) (Ok (t, Er er)) -> ~ not_code er ->
  of_file er \/ In er (dat_hdr_errs ++ l).
Proof. exact visit_only. Qed.

(** Nine codes of the enumeration are never reported. *)
Theorem C66_unused : forall er, In er unused ->
  forall e, ~ reports (store_open e) er /\ ~ reports (recover e) er /\
    (forall a, ~ reports (create e a) er) /\ (forall a, ~ reports (rekey e a) er) /\
    (forall buf, ~ reports (verify e buf) er) /\
    forall s, used e s ->
      (forall k, ~ reports (store_fetch e s k) er) /\
      (forall k v, ~ reports (store_insert e s k v) er) /\
      ~ reports (store_close e s) er.
Proof.
  intros er U e.
  assert (X : forall A (p : prog (res A)) l, only l p ->
    (In er l -> False) -> ~ reports p er).
  { intros A p l O N R. destruct (O er R) as [F|F]; [|exact (N F)].
    cbn in U. repeat destruct U as [<-|U]; try exact F; destruct U. }
  assert (D : forall l, (forall x, In x unused -> In x l -> False) -> In er l -> False) by (intros l H; exact (H er U)).
  assert (Y : forall A (p : prog (res A)) l, only l p -> (forall x, In x unused -> In x l -> False) -> ~ reports p er).
  { intros A p l O N. exact (X A p l O (D l N)). }
  Ltac dis := intros x Hx Hy; cbn in Hx; repeat destruct Hx as [<-|Hx]; try destruct Hx; cbn in Hy;
    repeat destruct Hy as [Hy|Hy]; try discriminate; exact Hy.
  split; [|split; [|split; [|split; [|split]]]].
  - apply (Y _ _ recover_errs); [apply errs_only, errs_open|dis].
  - apply (Y _ _ recover_errs); [apply errs_only, errs_recover|dis].
  - intros a. apply (Y _ _ create_errs); [apply errs_only, errs_create|dis].
  - intros a. apply (Y _ _ rekey_errs); [apply errs_only, errs_rekey|dis].
  - intros buf. apply (Y _ _ verify_errs); [apply errs_only, errs_verify|dis].
  - intros s Us. pose proof (used_ec e s Us) as H. split; [|split]; intros.
    + apply (Y _ _ fetch_errs); [apply fetch_only, H|dis].
    + apply (Y _ _ insert_errs); [apply insert_only, H|dis].
    + apply (Y _ _ flush_errs); [apply close_only, H|dis].
Qed.

(** ** Each code in the lists is reported by some call. *)

(** Answers that lead to an error: parts of the files as they are read. *)
Definition ok0 : rsp := ROk 0 [].
Definition rd (d : bytes) : rsp := ROk 0 d.
Definition sz (n : N) : rsp := ROk n [].

Definition dhb (ty : bytes) (v u a ks : N) : rsp :=
  rd (ty ++ wr16 v ++ wr64 u ++ wr64 a ++ wr16 ks ++ zeros 64).
Definition dh_good : rsp := dhb magic_dat 2 9 7 2.
Definition bad_dats : list rsp :=
  [dhb magic_key 2 9 7 2; dhb magic_dat 3 9 7 2; dhb magic_dat 2 9 7 0].

Definition khb (ty : bytes) (v u a ks salt pep bs lf : N) : rsp :=
  rd (ty ++ wr16 v ++ wr64 u ++ wr64 a ++ wr16 ks ++ wr64 salt ++ wr64 pep ++ wr16 bs ++ wr16 lf ++ zeros 56).
Definition pp (salt : N) : N := pepper (e_hasher sample_env) salt.
Definition kh_good : rsp := khb magic_key 2 9 7 2 11 (pp 11) 104 32768.
(** With the size of the key file. *)
Definition bad_keys : list (rsp * N) :=
  [(khb magic_dat 2 9 7 2 11 (pp 11) 104 32768, 208); (khb magic_key 1 9 7 2 11 (pp 11) 104 32768, 208);
   (khb magic_key 2 9 7 0 11 (pp 11) 104 32768, 208); (khb magic_key 2 9 7 2 11 12345 104 32768, 208);
   (khb magic_key 2 9 7 2 11 (pp 11) 104 0, 208); (khb magic_key 2 9 7 2 11 (pp 11) 64 32768, 208);
   (khb magic_key 2 9 7 2 11 (pp 11) 200 32768, 150)].
Definition alien_keys : list (rsp * N) :=
  [(khb magic_key 2 8 7 2 11 (pp 11) 104 32768, 208); (khb magic_key 2 9 6 2 11 (pp 11) 104 32768, 208);
   (khb magic_key 2 9 7 3 11 (pp 11) 104 32768, 208)].

Definition lhb (ty : bytes) (v u a ks salt pep bs : N) : rsp :=
  rd (ty ++ wr16 v ++ wr64 u ++ wr64 a ++ wr16 ks ++ wr64 salt ++ wr64 pep ++ wr16 bs ++ wr64 208 ++ wr64 92).
Definition lh_good : rsp := lhb magic_log 2 9 7 2 11 (pp 11) 104.
Definition bad_logs : list rsp :=
  [lhb magic_dat 2 9 7 2 11 (pp 11) 104; lhb magic_log 1 9 7 2 11 (pp 11) 104;
   lhb magic_log 2 9 7 2 11 12345 104; lhb magic_log 2 9 7 0 11 (pp 11) 104].
Definition alien_logs : list rsp :=
  [lhb magic_log 2 8 7 2 11 (pp 11) 104; lhb magic_log 2 9 6 2 11 (pp 11) 104;
   lhb magic_log 2 9 7 3 11 (pp 11) 104; lhb magic_log 2 9 7 2 10 (pp 10) 104;
   lhb magic_log 2 9 7 2 11 (pp 11) 122].

Definition key1 : bytes := [1; 2].
Definition hash1 : N := hash (e_hasher sample_env) 11 key1.
Definition bk_good : rsp := rd (zeros 98).
Definition bk_bad : rsp := rd (wr16 6 ++ zeros 96).
Definition bk_one : bytes := wr16 1 ++ wr48 0 ++ wr48 92 ++ wr48 4 ++ wr48 hash1 ++ zeros 72.

Definition create_calls : list (create_args * list rsp) :=
  [(CreateArgs 7 9 11 0 104 (FVal 1 2), []); (CreateArgs 7 9 11 2 103 (FVal 1 2), []);
   (CreateArgs 7 9 11 2 104 (FVal 0 1), [])].

Definition recover_calls : list (list rsp) :=
  map (fun d => [ok0; sz 92; d]) bad_dats ++
  map (fun k => [ok0; sz 92; dh_good; ok0; sz (snd k); ok0; sz 78; lh_good; fst k; sz (snd k)]) bad_keys ++
  map (fun l => [ok0; sz 92; dh_good; ok0; sz 208; ok0; sz 78; l]) bad_logs ++
  map (fun l => [ok0; sz 92; dh_good; ok0; sz 208; ok0; sz 78; l; kh_good; sz 208]) alien_logs ++
  [[ok0; sz 92; dh_good; ok0; sz 104; ok0; ok0];
   [ok0; sz 92; dh_good; ok0; sz 208; ok0; sz 78; lh_good; kh_good; sz 208; rd (wr64 0 ++ wr16 0 ++ wr48 5)];
   [ok0; sz 92; dh_good; ok0; sz 208; ok0; sz 78; lh_good; kh_good; sz 208; rd (wr64 5 ++ wr16 0 ++ wr48 0)]].

Definition rekey_args0 : rekey_args := RekeyArgs 11 104 (FVal 1 2) (Some 1) 1024.
Definition rekey_calls : list (list rsp) :=
  map (fun d => [ok0; d]) bad_dats ++ [[ok0; dh_good; sz 92; ok0]].

Definition vheads (dat : N) : list rsp := [ok0; ok0; dh_good; kh_good; sz 208; sz 208; sz dat].
Definition verify_calls : list (N * list rsp) :=
  map (fun d => (0, [ok0; ok0; d])) bad_dats ++
  map (fun k => (0, [ok0; ok0; dh_good; fst k; sz (snd k)])) (bad_keys ++ alien_keys) ++
  [(0, vheads 92 ++ [bk_bad]);
   (0, vheads 98 ++ [rd (zeros 6)]);
   (4000, vheads 93 ++ [rd (zeros 104)]);
   (4000, vheads 98 ++ [rd (zeros 104); rd (wr48 4)]);
   (0, vheads 100 ++ [rd (zeros 6 ++ wr16 5)]);
   (0, vheads 101 ++ [rd (wr48 1 ++ [1; 2; 3]); bk_good]);
   (0, vheads 92 ++ [rd bk_one; RErr short_read]);
   (0, vheads 92 ++ [rd bk_one; rd (wr48 5 ++ key1)])].

Example create_fed : map (fun c => fed (create sample_env (fst c)) (snd c)) create_calls = map Some create_errs.
Proof. vm_compute. reflexivity. Qed.
Example recover_fed : map (fed (recover sample_env)) recover_calls = map Some recover_errs.
Proof. vm_compute. reflexivity. Qed.
Example rekey_fed : map (fed (rekey sample_env rekey_args0)) rekey_calls = map Some rekey_errs.
Proof. vm_compute. reflexivity. Qed.
Example verify_fed :
  map (fun c => fed (verify sample_env (fst c)) (snd c)) verify_calls = map Some verify_errs.
Proof. vm_compute. reflexivity. Qed.

(** A store that has just been opened, and one with an insert. *)
Definition open_answers : list rsp :=
  [ok0; sz 92; dh_good; ok0; sz 208; RErr ENoEnt; ok0; ok0; ok0; dh_good; kh_good; sz 208].
Definition none : store :=
  Store (dec_key_header [] 0) pool_empty pool_empty [] 0 0 0 0 None.
Definition store1 : store :=
  match feed (store_open sample_env) open_answers with Some (Ok s) => s | _ => none end.
Definition store2 : store :=
  match feed (store_insert sample_env store1 [3; 4] [5]) [bk_good] with Some (Ok s) => s | _ => none end.

Lemma store1_used : used sample_env store1.
Proof.
  apply u_open, (feed_end open_answers); [reflexivity|]. unfold store1.
  destruct (feed (store_open sample_env) open_answers) as [[s|er]|] eqn:E; [reflexivity| |];
  exfalso; assert (X : match feed (store_open sample_env) open_answers with Some (Ok _) => true | _ => false end = true)
    by (vm_compute; reflexivity); rewrite E in X; discriminate.
Qed.
Lemma store2_used : used sample_env store2.
Proof.
  apply (u_insert _ store1 [3; 4] [5]); [apply store1_used|].
  apply (feed_end [bk_good]); [reflexivity|]. unfold store2.
  destruct (feed (store_insert sample_env store1 [3; 4] [5]) [bk_good]) as [[s|er]|] eqn:E; [reflexivity| |];
  exfalso; assert (X : match feed (store_insert sample_env store1 [3; 4] [5]) [bk_good] with Some (Ok _) => true | _ => false end = true)
    by (vm_compute; reflexivity); rewrite E in X; discriminate.
Qed.

Example fetch_fed : map (fed (store_fetch sample_env store1 key1)) [[bk_good]; [bk_bad]] = map Some fetch_errs.
Proof. vm_compute. reflexivity. Qed.
Example insert_fed :
  map (fed (store_insert sample_env store1 key1 [5])) [[rd bk_one; rd key1]; [bk_bad]] = map Some insert_errs.
Proof. vm_compute. reflexivity. Qed.
Example close_fed :
  map (fed (store_close sample_env store2)) [[sz 208; sz 92; ok0; ok0; sz 92; bk_bad]] = map Some flush_errs.
Proof. vm_compute. reflexivity. Qed.

Lemma fed_all {C A} (p : C -> prog (res A)) (an : C -> list rsp) calls es :
  map (fun c => fed (p c) (an c)) calls = map Some es ->
  forall er, In er es -> ~ not_code er -> exists c, reports (p c) er.
Proof.
  revert es. induction calls as [|c calls IH]; intros [|e0 es] H er Hi Hn; try discriminate; [destruct Hi|].
  cbn [map] in H. injection H as H1 H2. destruct Hi as [<-|Hi].
  - exists c. exact (fed_reports _ _ _ H1 Hn).
  - exact (IH es H2 er Hi Hn).
Qed.

Theorem C66_all_occur :
  (forall er, In er create_errs -> exists e a, reports (create e a) er) /\
  (forall er, In er recover_errs -> exists e, reports (recover e) er /\ reports (store_open e) er) /\
  (forall er, In er rekey_errs -> exists e a, reports (rekey e a) er) /\
  (forall er, In er verify_errs -> exists e buf, reports (verify e buf) er) /\
  (forall er, In er fetch_errs -> exists e s k, used e s /\ reports (store_fetch e s k) er) /\
  (forall er, In er insert_errs -> exists e s k v, used e s /\ reports (store_insert e s k v) er) /\
  (forall er, In er flush_errs -> exists e s, used e s /\ reports (store_close e s) er).
Proof.
  assert (NC : forall er l, In er l -> forallb (fun x => match x with EAssert | EThrow | EUB | EDiverge => false | _ => true end) l = true -> ~ not_code er).
  { intros er l Hi Ha N. rewrite forallb_forall in Ha. specialize (Ha er Hi). destruct er; try discriminate; exact N. }
  split; [|split; [|split; [|split; [|split; [|split]]]]]; intros er Hi;
    (assert (Hn : ~ not_code er) by (exact (NC er _ Hi eq_refl))).
  - destruct (fed_all (fun c => create sample_env (fst c)) snd _ _ create_fed er Hi Hn) as [c Hc].
    exists sample_env, (fst c). exact Hc.
  - destruct (fed_all (fun _ => recover sample_env) (fun c => c) _ _ recover_fed er Hi Hn) as [c Hc].
    exists sample_env. split; [exact Hc|]. split; [|exact Hn]. destruct Hc as [Hc _].
    unfold store_open. apply ebind_fails. exact Hc.
  - destruct (fed_all (fun _ => rekey sample_env rekey_args0) (fun c => c) _ _ rekey_fed er Hi Hn) as [c Hc].
    exists sample_env, rekey_args0. exact Hc.
  - destruct (fed_all (fun c => verify sample_env (fst c)) snd _ _ verify_fed er Hi Hn) as [c Hc].
    exists sample_env, (fst c). exact Hc.
  - destruct (fed_all (fun _ => store_fetch sample_env store1 key1) (fun c => c) _ _ fetch_fed er Hi Hn) as [c Hc].
    exists sample_env, store1, key1. split; [exact store1_used|exact Hc].
  - destruct (fed_all (fun _ => store_insert sample_env store1 key1 [5]) (fun c => c) _ _ insert_fed er Hi Hn) as [c Hc].
    exists sample_env, store1, key1, [5]. split; [exact store1_used|exact Hc].
  - destruct (fed_all (fun _ => store_close sample_env store2) (fun c => c) _ _ close_fed er Hi Hn) as [c Hc].
    exists sample_env, store2. split; [exact store2_used|exact Hc].
Qed.

(** A callback that refuses every item, and a data file with one item. *)
Definition refuse : callback := fun _ _ _ => Some (ECallback 5).
Example visit_refused :
  (forall t k v er, refuse t k v = Some er -> In er [ECallback 5]) /\
  may_end (visit refuse) (Ok ([VProgress 0 101; VItem [1; 2] [3]], Er (ECallback 5))).
Proof.
  split; [intros t k v er H; injection H as <-; left; reflexivity|].
  apply (feed_end [ok0; dh_good; sz 101; rd (wr48 1 ++ [1; 2; 3])]); [reflexivity|].
  vm_compute. reflexivity.
Qed.

Print Assumptions C66_files.
Print Assumptions C66_store.
Print Assumptions C66_visit.
Print Assumptions C66_unused.
Print Assumptions C66_all_occur.
