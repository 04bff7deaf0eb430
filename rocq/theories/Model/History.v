(** Programs using the API: sequences of calls on one open store. *)
From Verif Require Import Model.Bytes Model.Err Model.Format Model.IO Model.Bucket Model.Pool
  Model.Recover Model.Create Model.Store Spec.

(** Answer of insert(): include/nudb/impl/basic_store.ipp:266-354. *)
Definition insert_out (r : res store) : out :=
  match r with
  | Ok _ => OInserted
  | Er key_exists => OKeyExists
  | Er EAssert => OAborted
  | Er _ => OOther
  end.

(** Answer of fetch(): include/nudb/impl/basic_store.ipp:220-264. *)
Definition fetch_out (r : res bytes) : out :=
  match r with
  | Ok v => OFound v
  | Er key_not_found => ONotFound
  | Er EAssert => OAborted
  | Er _ => OOther
  end.

(** Answer of a call without a result, by its error. *)
Definition done_out (o : option err) : out :=
  match o with
  | None => ODone
  | Some EAssert => OAborted
  | Some _ => OOther
  end.

(** One call, made by the only thread using the store.  Flushing is a call here
    (in C++ the context thread calls basic_store::flush,
    include/nudb/impl/basic_store.ipp:757-804, at times the user does not
    control; an [OpFlush] may occur anywhere in a history).  Reopening is close()
    (basic_store.ipp:190-218) followed by open() of the same paths.  The store is
    [None] when reopening failed. *)
Definition op_prog (e : env) (s : store) (c : op) : prog (option store * out) :=
  match c with
  | OpInsert k v =>
    bind (store_insert e s k v) (fun r =>
    Ret (Some (match r with Ok s' => s' | Er _ => s end), insert_out r))
  | OpFetch k => bind (store_fetch e s k) (fun r => Ret (Some s, fetch_out r))
  | OpFlush => bind (store_flush e s) (fun s' => Ret (Some s', done_out (st_ec s')))
  | OpReopen =>
    bind (store_close e s) (fun r =>
    match r with
    | Er er => Ret (None, done_out (Some er))
    | Ok _ =>
      bind (store_open e) (fun r =>
      match r with
      | Er er => Ret (None, done_out (Some er))
      | Ok s' => Ret (Some s', ODone)
      end)
    end)
  end.

(** The call carried out without failures. *)
Definition do_op (e : env) (s : store) (c : op) (w : world) : world * option store * out :=
  let '(w', (s', o)) := run (op_prog e s c) w in (w', s', o).

(** A history of calls: the answers, stopping at an abort (failed assertion), and
    the final files and store. *)
Fixpoint do_ops (e : env) (s : store) (l : list op) (w : world)
  : world * option store * list out :=
  match l with
  | [] => (w, Some s, [])
  | c :: l' =>
    match do_op e s c w with
    | (w', Some s', OAborted) => (w', None, [OAborted])
    | (w', Some s', o) =>
      let '(w'', s'', os) := do_ops e s' l' w' in (w'', s'', o :: os)
    | (w', None, o) => (w', None, [o])
    end
  end.

(** Arguments of create() for which it makes a usable database: the ranges of the
    header fields, room for one entry in a bucket, and a load factor between
    1/65536 and 1 (include/nudb/create.hpp documents 0 < load_factor < 1). *)
Definition good_args (a : create_args) : Prop :=
  ca_uid a < 2 ^ 64 /\ ca_appnum a < 2 ^ 64 /\ ca_salt a < 2 ^ 64 /\
  1 <= ca_key_size a <= 65535 /\ 104 <= ca_block_size a <= 65535 /\
  match ca_load_factor a with
  | FNaN => False
  | FVal n d => (Z.pos d <= 65536 * n)%Z /\ (n < Z.pos d)%Z
  end.

Definition no_files : world := World None None None.

(** The life of a database: create(), open(), and then the calls [l]; the files
    and the store at the end and the answers of the calls [l]. *)
Definition life (e : env) (a : create_args) (l : list op) : world * option store * list out :=
  let '(w1, r1) := run (create e a) no_files in
  match r1 with
  | Er er => (w1, None, [done_out (Some er)])
  | Ok _ =>
    let '(w2, r2) := run (store_open e) w1 in
    match r2 with
    | Er er => (w2, None, [done_out (Some er)])
    | Ok s => do_ops e s l w2
    end
  end.

Definition answers (e : env) (a : create_args) (l : list op) : list out := snd (life e a l).

(** The files [w] and the open store [s] are those after some life [l]. *)
Definition lived (e : env) (a : create_args) (l : list op) (w : world) (s : store) : Prop :=
  exists os, life e a l = (w, Some s, os).

(** The data file is within 8 GiB of the 2^48 bytes a 48-bit offset (detail::
    field<uint48_t>, include/nudb/detail/field.hpp:33-69) can address. *)
Definition near_limit (w : world) : Prop :=
  exists d, w_dat w = Some d /\ 2 ^ 48 - 2 ^ 33 <= blen d.

(** A life that does not meet the limit: known from the number and size of its
    inserts alone, or from the data file it leaves. *)
Definition within_limit (e : env) (a : create_args) (l : list op) : Prop :=
  small_history l \/ ~ near_limit (fst (fst (life e a l))).
