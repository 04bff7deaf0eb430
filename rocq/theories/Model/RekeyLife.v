(** Programs that also replace the key file of their database. *)
From Verif Require Import Model.Bytes Model.Err Model.Format Model.IO Model.Bucket Model.Pool
  Model.Recover Model.Create Model.Store Model.Rekey Spec Model.History.

(** Calls on an open store, or replacing its key file. *)
Inductive xop := XCall (c : op) | XRekey (a : rekey_args).

(** Replacing the key file: close() (include/nudb/impl/basic_store.ipp:190-218), erasing
    the key file (rekey() fails when there is one, include/nudb/impl/rekey.ipp:90-94),
    rekey() (include/nudb/impl/rekey.ipp:20-244) and open() of the data file and the new
    key file.  The store is [None] when one of them failed. *)
Definition rekey_prog (e : env) (s : store) (a : rekey_args) : prog (option store * out) :=
  bind (store_close e s) (fun r =>
  match r with
  | Er er => Ret (None, done_out (Some er))
  | Ok _ =>
    bind (p_erase FKey) (fun r =>
    match r with
    | Er er => Ret (None, done_out (Some er))
    | Ok _ =>
      bind (rekey e a) (fun r =>
      match r with
      | Er er => Ret (None, done_out (Some er))
      | Ok _ =>
        bind (store_open e) (fun r =>
        match r with
        | Er er => Ret (None, done_out (Some er))
        | Ok s' => Ret (Some s', ODone)
        end)
      end)
    end)
  end).

Definition do_xop (e : env) (s : store) (c : xop) (w : world) : world * option store * out :=
  match c with
  | XCall c => do_op e s c w
  | XRekey a => let '(w', (s', o)) := run (rekey_prog e s a) w in (w', s', o)
  end.

(** As [do_ops] and [life] of Model/History.v. *)
Fixpoint do_xops (e : env) (s : store) (l : list xop) (w : world)
  : world * option store * list out :=
  match l with
  | [] => (w, Some s, [])
  | c :: l' =>
    match do_xop e s c w with
    | (w', Some s', OAborted) => (w', None, [OAborted])
    | (w', Some s', o) =>
      let '(w'', s'', os) := do_xops e s' l' w' in (w'', s'', o :: os)
    | (w', None, o) => (w', None, [o])
    end
  end.

Definition xlife (e : env) (a : create_args) (l : list xop) : world * option store * list out :=
  let '(w1, r1) := run (create e a) no_files in
  match r1 with
  | Er er => (w1, None, [done_out (Some er)])
  | Ok _ =>
    let '(w2, r2) := run (store_open e) w1 in
    match r2 with
    | Er er => (w2, None, [done_out (Some er)])
    | Ok s => do_xops e s l w2
    end
  end.

(** Arguments of rekey() for which it makes a usable key file: room for one entry in a
    bucket, a load factor of at least 1/65536 whose product with 65536 fits size_t, at
    least one bucket, and a key file of less than 2^64 bytes. *)
Definition good_rekey (a : rekey_args) : Prop :=
  ra_salt a < 2 ^ 64 /\ 104 <= ra_block_size a <= 65535 /\
  match ra_load_factor a with
  | FNaN => False
  | FVal n d => (Z.pos d <= 65536 * n)%Z /\ (65536 * n < 2 ^ 64 * Z.pos d)%Z
  end /\
  match ra_buckets a with
  | None => False
  | Some nb => 1 <= nb /\ (nb + 1) * ra_block_size a < 2 ^ 64
  end.

Definition valid_xop (key_size : N) (c : xop) : Prop :=
  match c with XCall c => valid_op key_size c | XRekey a => good_rekey a end.

(** What a rekey must look like: closing and opening the store. *)
Definition as_reopen (c : xop) : op := match c with XCall c => c | XRekey _ => OpReopen end.

Fixpoint rekeys (l : list xop) : N :=
  match l with [] => 0 | XRekey _ :: l' => 1 + rekeys l' | _ :: l' => rekeys l' end.

(** A history after which the data file surely is below the 2^48 bytes the file format
    can address: every rekey may add a spill record per value. *)
Definition small_xhistory (l : list xop) : Prop :=
  let i := inserts (map as_reopen l) in
  92 + insert_bytes (map as_reopen l) + 65544 * (i * i) + 65544 * (rekeys l * i) < 281474976710648.

(** As [within_limit] of Model/History.v. *)
Definition within_xlimit (e : env) (a : create_args) (l : list xop) : Prop :=
  small_xhistory l \/ ~ near_limit (fst (fst (xlife e a l))).
