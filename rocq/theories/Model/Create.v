(** Creating a database: include/nudb/impl/create.ipp. *)
From Verif Require Import Model.Bytes Model.Err Model.Field Model.Format Model.IO
  Model.BulkIO Model.Bucket Model.Recover.

(** A C++ float: not-a-number or a number.  Finite floats are rationals
    [num/den]; infinities behave like any number above 1 or below 0 here. *)
Inductive float := FNaN | FVal (num : Z) (den : positive).

(** [load_factor <= 0.f || load_factor >= 1.f], false on NaN:
    include/nudb/impl/create.ipp:76. *)
Definition lf_invalid (f : float) : bool :=
  match f with
  | FNaN => false
  | FVal n d => (n <=? 0)%Z || (Z.pos d <=? n)%Z
  end.

(** [min(static_cast<size_t>(65536.0f * load_factor), 65535)]:
    include/nudb/impl/create.ipp:121-123.  Multiplying a float by 2^16 is exact;
    converting NaN to an integer is undefined ([None]). *)
Definition lf_field (f : float) : option N :=
  match f with
  | FNaN => None
  | FVal n d => Some (N.min (Z.to_N (65536 * n / Z.pos d)) 65535)
  end.

(** Arguments of create(): include/nudb/impl/create.ipp:53-58. *)
Record create_args := CreateArgs {
  ca_appnum : N; ca_uid : N; ca_salt : N; ca_key_size : N; ca_block_size : N;
  ca_load_factor : float }.

(** The headers create() fills in: include/nudb/impl/create.ipp:107-123. *)
Definition create_dat_header (a : create_args) : dat_header :=
  DatHeader [] currentVersion (ca_uid a) (ca_appnum a) (ca_key_size a).
Definition create_key_header (e : env) (a : create_args) (lf : N) : key_header :=
  KeyHeader [] currentVersion (ca_uid a) (ca_appnum a) (ca_key_size a) (ca_salt a)
    (pepper (e_hasher e) (ca_salt a)) (ca_block_size a) lf 0 0 0.

(** write(File, key_file_header): include/nudb/detail/format.hpp:390-406. *)
Definition write_key_header (kh : key_header) (ap : bool) : prog (res unit) :=
  if kh_block_size kh <? key_hdr_size then pfail invalid_block_size
  else p_write FKey ap 0 (enc_key_header_block kh).

(** Filling the created files: include/nudb/impl/create.ipp:107-147. *)
Definition create_fill (e : env) (a : create_args) : prog (res unit) :=
  match lf_field (ca_load_factor a) with
  | None => pfail EUB
  | Some lf =>
    p_write FDat true 0 (enc_dat_header (create_dat_header a)) ;;;
    write_key_header (create_key_header e a lf) true ;;;
    bk_write (bk_empty (ca_block_size a)) FKey true (ca_block_size a) ;;;
    p_sync FDat ;;;
    p_sync FKey ;;;
    p_sync FLog
  end.

(** erase_file(path) ignoring errors: include/nudb/native_file.hpp:65-72. *)
Definition erase_quiet (f : fname) : prog unit := bind (p_erase f) (fun _ => Ret tt).

(** The fail: label: include/nudb/impl/create.ipp:149-155. *)
Definition create_fail (edf ekf elf : bool) (er : err) : prog (res unit) :=
  bind (if edf then erase_quiet FDat else Ret tt) (fun _ =>
  bind (if ekf then erase_quiet FKey else Ret tt) (fun _ =>
  bind (if elf then erase_quiet FLog else Ret tt) (fun _ =>
  pfail er))).

(** create(): include/nudb/impl/create.ipp:43-156.  key_size beyond 65535 is
    truncated by the header field (the BOOST_ASSERT of write<uint16_t> is absent
    in release builds). *)
Definition create (e : env) (a : create_args) : prog (res unit) :=
  if ca_key_size a <? 1 then pfail invalid_key_size
  else if 65535 <? ca_block_size a then pfail invalid_block_size
  else if lf_invalid (ca_load_factor a) then pfail invalid_load_factor
  else if bucket_capacity (ca_block_size a) <? 1 then pfail invalid_block_size
  else
    bind (p_create FDat) (fun r1 =>
    match r1 with
    | Er er => create_fail false false false er
    | Ok _ =>
      bind (p_create FKey) (fun r2 =>
      match r2 with
      | Er er => create_fail true false false er
      | Ok _ =>
        bind (p_create FLog) (fun r3 =>
        match r3 with
        | Er er => create_fail true true false er
        | Ok _ =>
          bind (create_fill e a) (fun r4 =>
          match r4 with
          | Ok _ => pret tt
          | Er EUB => pfail EUB
          | Er er => create_fail true true true er
          end)
        end)
      end)
    end).
