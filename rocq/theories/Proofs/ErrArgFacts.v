(** The statements of Props/ErrArgProps.v. *)
From Verif Require Import Model.Bytes Model.Err Model.Field Model.Format Model.IO
  Model.BulkIO Model.Bucket Model.Pool Model.Recover Model.Create Model.Store Model.Visit Model.Verify
  Model.Rekey Model.RekeyLife Model.ErrArg Spec SpecCrash Model.History SpecAttrs SpecHeader SpecCreate
  Proofs.BytesFacts Proofs.IOFacts Proofs.StoreInv Proofs.HistoryFacts Proofs.LifeFacts Proofs.DiskFacts
  Proofs.AttrsFacts Proofs.CreateFacts.
Opaque loop.

Definition data_answer (w : world) (er : err) : err := match w_dat w with Some _ => er | None => ENoEnt end.

Lemma held_open {A} er (k : rsp -> prog (res A)) w :
  run (with_ec (Some er) (Do (IoOpen FDat) k)) w = (w, (Some (data_answer w er), None)).
Proof. unfold with_ec, one_operation, data_answer. cbn [run exec]. change (wget w FDat) with (w_dat w). destruct (w_dat w); reflexivity. Qed.

Lemma held_recover e er w : run (recover_ec e (Some er)) w = (w, (Some (data_answer w er), None)).
Proof. exact (held_open er _ w). Qed.
Lemma held_store_open e er w : run (open_ec e (Some er)) w = (w, (Some (data_answer w er), None)).
Proof. exact (held_open er _ w). Qed.
Lemma held_rekey e a er w : run (rekey_ec e a (Some er)) w = (w, (Some (data_answer w er), None)).
Proof. exact (held_open er _ w). Qed.
Lemma held_verify e n er w : run (verify_ec e n (Some er)) w = (w, (Some (data_answer w er), None)).
Proof. exact (held_open er _ w). Qed.
Lemma held_visit cb er w : run (visit_ec cb (Some er)) w = (w, (Some (data_answer w er), [])).
Proof.
  change (run (Do (IoOpen FDat) (fun r => Ret (Some (match r with RErr er' => er' | ROk _ _ => er end), @nil vcall))) w =
    (w, (Some (data_answer w er), []))).
  unfold data_answer. cbn [run exec]. change (wget w FDat) with (w_dat w). destruct (w_dat w); reflexivity.
Qed.

Lemma read_kinds f off len w :
  exec (IoRead f off len) w = (w, RErr short_read) \/ exec (IoRead f off len) w = (w, RErr EBadF) \/
  exists d, exec (IoRead f off len) w = (w, ROk 0 d).
Proof. cbn [exec]. destruct (wget w f) as [c|]; [|auto]. destruct (_ || _); eauto. Qed.

Lemma held_fetch e a l w s k er : good_args a -> iter_ok e -> Forall (valid_op (ca_key_size a)) l ->
  lived e a l w s -> blen k = ca_key_size a ->
  run (fetch_ec e s k (Some er)) w =
    (w, (Some er, unsaved (spec_final sempty l) (spec_durable sempty sempty l) k)).
Proof.
  intros Ha Hit Hv Hl Hk.
  destruct (lived_memory e a l w s Ha Hit Hv Hl) as (P0 & C1 & M). specialize (M k). rewrite <- M. clear M.
  destruct (lived_more e a l w s Ha Hit Hv Hl) as (recs & T & _ & Hi & _).
  pose proof (si_ec _ _ _ _ _ _ Hi) as Ec. clear Hi.
  destruct (lived_chains e a l w s Hit Ha Hv Hl) as [_ F]. specialize (F k Hk).
  unfold fetch_ec. unfold store_fetch in *. rewrite Ec in *.
  destruct (pool_find (st_p1 s) k) as [x|]; [reflexivity|].
  rewrite P0 in *. change (pool_find pool_empty k) with (@None pelem) in *. cbn [option_map]. rewrite C1 in *.
  change (cache_find [] (bucket_index (hash (e_hasher e) (kh_salt (st_kh s)) k) (st_buckets s) (st_modulus s))) with (@None bytes) in *.
  cbv beta iota zeta in *. unfold bk_read at 1 in F. unfold bk_read at 1. unfold p_read at 1. unfold p_read at 1 in F.
  unfold do_data at 1. unfold do_data at 1 in F. unfold ebind at 1 2. unfold ebind at 1 2 in F.
  cbn [bind with_ec one_operation run] in *.
  match goal with |- context [exec ?o w] => set (op := o) in * end.
  assert (K := read_kinds FKey ((bucket_index (hash (e_hasher e) (kh_salt (st_kh s)) k) (st_buckets s) (st_modulus s) + 1) *
      kh_block_size (st_kh s)) (bucket_size (bucket_capacity (blen (fresh e (kh_block_size (st_kh s)))))) w).
  fold op in K. destruct K as [K|[K|(d & K)]]; rewrite K in *; [| |reflexivity].
  - exfalso. cbn [bind run] in F. destruct (spec_final sempty l k); discriminate.
  - exfalso. cbn [bind run] in F. destruct (spec_final sempty l k); discriminate.
Qed.

Lemma held_insert e a l w s k v er : good_args a -> iter_ok e -> Forall (valid_op (ca_key_size a)) l ->
  lived e a l w s -> blen k = ca_key_size a -> 0 < blen v < 2 ^ 32 ->
  run (insert_ec e s k v (Some er)) w =
    (w, (Some (match unsaved (spec_final sempty l) (spec_durable sempty sempty l) k with
               | Some _ => key_exists | None => er end), None)).
Proof.
  intros Ha Hit Hv Hl Hk Hs.
  destruct (lived_memory e a l w s Ha Hit Hv Hl) as (P0 & C1 & M). specialize (M k). rewrite <- M. clear M.
  destruct (lived_more e a l w s Ha Hit Hv Hl) as (recs & T & _ & Hi & _).
  pose proof (si_ec _ _ _ _ _ _ Hi) as Ec. clear Hi.
  destruct (lived_chains e a l w s Hit Ha Hv Hl) as [_ F]. specialize (F k Hk).
  unfold insert_ec, store_insert. unfold store_fetch in F. rewrite Ec in *.
  destruct (N.eqb_spec (blen v) 0) as [X|_]; [lia|].
  destruct (N.ltb_spec 4294967295 (blen v)) as [X|_]; [change (2 ^ 32) with 4294967296 in Hs; lia|]. cbn [orb].
  destruct (pool_find (st_p1 s) k) as [x|]; [reflexivity|].
  rewrite P0 in *. change (pool_find pool_empty k) with (@None pelem) in *. cbn [option_map]. rewrite C1 in *.
  change (cache_find [] (bucket_index (hash (e_hasher e) (kh_salt (st_kh s)) k) (st_buckets s) (st_modulus s))) with (@None bytes) in *.
  cbv beta iota zeta in *. unfold bk_read at 1 in F. unfold bk_read at 1. unfold p_read at 1. unfold p_read at 1 in F.
  unfold do_data at 1. unfold do_data at 1 in F. unfold ebind at 1 2 3. unfold ebind at 1 2 in F.
  cbn [bind one_operation run] in *.
  match goal with |- context [exec ?o w] => set (op := o) in * end.
  assert (K := read_kinds FKey ((bucket_index (hash (e_hasher e) (kh_salt (st_kh s)) k) (st_buckets s) (st_modulus s) + 1) *
      kh_block_size (st_kh s)) (bucket_size (bucket_capacity (blen (fresh e (kh_block_size (st_kh s)))))) w).
  fold op in K. destruct K as [K|[K|(d & K)]]; rewrite K in *; [| |reflexivity].
  - exfalso. cbn [bind run] in F. destruct (spec_final sempty l k); discriminate.
  - exfalso. cbn [bind run] in F. destruct (spec_final sempty l k); discriminate.
Qed.

Lemma held_create e a er w : first_failed (arg_checks a) = None -> w_dat w = None ->
  run (create_ec e a (Some er)) w = (wset w FDat (Some []), (Some er, None)) /\
  run (create e a) (wset w FDat (Some [])) = (wset w FDat (Some []), Er EExist).
Proof.
  intros Ha Hw. split.
  - unfold create_ec. rewrite create_accepted by auto.
    change (run (Do (IoCreate FDat) (fun r => Ret (Some (match r with RErr er' => er' | ROk _ _ => er end), @None unit))) w =
      (wset w FDat (Some []), (Some er, None))).
    cbn [run exec]. change (wget w FDat) with (w_dat w). rewrite Hw. reflexivity.
  - apply create_exists; [exact Ha|]. destruct w. discriminate.
Qed.

Lemma held_close e s er w :
  fst (run (close_ec e s (Some er)) w) = fst (run (store_close e s) w) /\ snd (run (close_ec e s (Some er)) w) = Some (match snd (run (store_close e s) w) with Ok _ => er | Er er' => er' end).
Proof.
  unfold close_ec. rewrite run_bind. destruct (run (store_close e s) w) as [w' [[]|er']]; cbn [run fst snd]; auto.
Qed.
