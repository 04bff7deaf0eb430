(** Encoding and decoding of headers. *)
From Verif Require Import Model.Bytes Model.Err Model.Field Model.Format Model.IO
  Model.BulkIO Model.Bucket Model.Recover
  Proofs.BytesFacts Proofs.FieldFacts Proofs.IOFacts Proofs.Table.

Lemma bsub_skip m (a b : bytes) o n : blen a = m -> m <= o -> bsub o n (a ++ b) = bsub (o - m) n b.
Proof. intros <- Hl. apply bsub_app_r. auto. Qed.
Lemma bsub_take (a b : bytes) n : blen a = n -> bsub 0 n (a ++ b) = a.
Proof. intros. apply (bsub_app_eq 0 n [] a b); auto. Qed.
Lemma bsub_self (a : bytes) n : blen a = n -> bsub 0 n a = a.
Proof. intros. rewrite bsub_0. apply btake_all. lia. Qed.

Ltac known a :=
  match a with
  | wr16 _ => constr:(2) | wr64 _ => constr:(8) | zeros ?n => n
  | magic_dat => constr:(8) | magic_key => constr:(8) | magic_log => constr:(8)
  end.
Ltac fld1 :=
  match goal with
  | |- context [bsub ?o ?n (?a ++ ?b)] =>
    let m := known a in
    let t := eval compute in (m <=? o) in
    match t with
    | true =>
      let k := eval compute in (o - m) in
      replace (bsub o n (a ++ b)) with (bsub k n b)
        by (symmetry; apply (bsub_skip m); [first [apply blen_wr16|apply blen_wr64|apply blen_zeros|reflexivity]|discriminate])
    | false =>
      replace (bsub o n (a ++ b)) with a
        by (symmetry; apply bsub_take; first [apply blen_wr16|apply blen_wr64|reflexivity])
    end
  | |- context [bsub 0 8 (wr64 ?x)] =>
    replace (bsub 0 8 (wr64 x)) with (wr64 x) by (symmetry; apply bsub_self; apply blen_wr64)
  end.

(** ** Data file header *)
Definition dat_fits (h : dat_header) : Prop :=
  dh_version h < 65536 /\ dh_uid h < 18446744073709551616 /\
  dh_appnum h < 18446744073709551616 /\ dh_key_size h < 65536.

Lemma blen_dat_header h : blen (enc_dat_header h) = dat_hdr_size.
Proof. unfold enc_dat_header. rewrite !blen_app, !blen_wr16, !blen_wr64, blen_zeros. reflexivity. Qed.

Lemma dec_enc_dat h : dat_fits h ->
  dec_dat_header (enc_dat_header h) =
  DatHeader magic_dat (dh_version h) (dh_uid h) (dh_appnum h) (dh_key_size h).
Proof.
  intros (A & B & C & D). unfold dec_dat_header, enc_dat_header. repeat fld1.
  rewrite !rd_wr16, !rd_wr64; auto.
Qed.

Lemma run_read_dat_header w h rest :
  dat_fits h -> wget w FDat = Some (enc_dat_header h ++ rest) ->
  run read_dat_header w =
  (w, Ok (DatHeader magic_dat (dh_version h) (dh_uid h) (dh_appnum h) (dh_key_size h))).
Proof.
  intros Hf Hw. unfold read_dat_header.
  erewrite run_ebind_ok by (apply run_read; [eauto|rewrite blen_app, blen_dat_header; lia]).
  rewrite bsub_take by apply blen_dat_header. rewrite dec_enc_dat by auto. reflexivity.
Qed.

(** ** Key file header *)
Definition key_fits (h : key_header) : Prop :=
  kh_version h < 65536 /\ kh_uid h < 18446744073709551616 /\
  kh_appnum h < 18446744073709551616 /\ kh_key_size h < 65536 /\
  kh_salt h < 18446744073709551616 /\ kh_pepper h < 18446744073709551616 /\
  kh_block_size h < 65536 /\ kh_load_factor h < 65536.

Lemma blen_key_header h : blen (enc_key_header h) = key_hdr_size.
Proof. unfold enc_key_header. rewrite !blen_app, !blen_wr16, !blen_wr64, blen_zeros. reflexivity. Qed.

Lemma blen_key_header_block h :
  key_hdr_size <= kh_block_size h -> blen (enc_key_header_block h) = kh_block_size h.
Proof. intros. unfold enc_key_header_block. rewrite blen_app, blen_key_header, blen_zeros. lia. Qed.

Lemma dec_enc_key h size : key_fits h ->
  dec_key_header (enc_key_header h) size =
  KeyHeader magic_key (kh_version h) (kh_uid h) (kh_appnum h) (kh_key_size h) (kh_salt h)
    (kh_pepper h) (kh_block_size h) (kh_load_factor h) (bucket_capacity (kh_block_size h))
    (buckets_of_size size (kh_block_size h)) (ceil_pow2 (buckets_of_size size (kh_block_size h))).
Proof.
  intros (A & B & C & D & E & F & G & I). unfold dec_key_header, enc_key_header. repeat fld1.
  rewrite !rd_wr16, !rd_wr64; auto.
Qed.

Lemma run_read_key_header w h rest :
  key_fits h -> wget w FKey = Some (enc_key_header_block h ++ rest) ->
  run read_key_header w =
  (w, Ok (KeyHeader magic_key (kh_version h) (kh_uid h) (kh_appnum h) (kh_key_size h) (kh_salt h)
    (kh_pepper h) (kh_block_size h) (kh_load_factor h) (bucket_capacity (kh_block_size h))
    (buckets_of_size (blen (enc_key_header_block h ++ rest)) (kh_block_size h))
    (ceil_pow2 (buckets_of_size (blen (enc_key_header_block h ++ rest)) (kh_block_size h))))).
Proof.
  intros Hf Hw. unfold read_key_header.
  set (c := enc_key_header_block h ++ rest) in *.
  assert (Hc : c = enc_key_header h ++ (zeros (kh_block_size h - key_hdr_size) ++ rest)).
  { unfold c, enc_key_header_block. rewrite <- app_assoc. auto. }
  erewrite run_ebind_ok by (apply run_read; [eauto|rewrite Hc, blen_app, blen_key_header; lia]).
  erewrite run_ebind_ok by (apply run_size; eauto).
  rewrite Hc at 1. rewrite bsub_take by apply blen_key_header. rewrite dec_enc_key by auto. reflexivity.
Qed.

(** ** Log file header *)
Definition log_fits (h : log_header) : Prop :=
  lh_version h < 65536 /\ lh_uid h < 18446744073709551616 /\
  lh_appnum h < 18446744073709551616 /\ lh_key_size h < 65536 /\
  lh_salt h < 18446744073709551616 /\ lh_pepper h < 18446744073709551616 /\
  lh_block_size h < 65536 /\ lh_key_file_size h < 18446744073709551616 /\
  lh_dat_file_size h < 18446744073709551616.

Lemma blen_log_header h : blen (enc_log_header h) = log_hdr_size.
Proof. unfold enc_log_header. rewrite !blen_app, !blen_wr16, !blen_wr64. reflexivity. Qed.

Lemma dec_enc_log h : log_fits h ->
  dec_log_header (enc_log_header h) =
  LogHeader magic_log (lh_version h) (lh_uid h) (lh_appnum h) (lh_key_size h) (lh_salt h)
    (lh_pepper h) (lh_block_size h) (lh_key_file_size h) (lh_dat_file_size h).
Proof.
  intros (A & B & C & D & E & F & G & I & J). unfold dec_log_header, enc_log_header. repeat fld1.
  rewrite !rd_wr16, !rd_wr64; auto.
Qed.

Lemma run_read_log_header w h rest :
  log_fits h -> wget w FLog = Some (enc_log_header h ++ rest) ->
  run read_log_header w =
  (w, Ok (LogHeader magic_log (lh_version h) (lh_uid h) (lh_appnum h) (lh_key_size h) (lh_salt h)
    (lh_pepper h) (lh_block_size h) (lh_key_file_size h) (lh_dat_file_size h))).
Proof.
  intros Hf Hw. unfold read_log_header.
  erewrite run_ebind_ok by (apply run_read; [eauto|rewrite blen_app, blen_log_header; lia]).
  rewrite bsub_take by apply blen_log_header. rewrite dec_enc_log by auto. reflexivity.
Qed.

Lemma pepper_lt H salt : pepper H salt < 18446744073709551616.
Proof.
  unfold pepper. change 18446744073709551615 with (N.ones 64). rewrite N.land_ones.
  change 18446744073709551616 with (2 ^ 64). apply N.mod_lt. discriminate.
Qed.

Lemma buckets_of_kfile B bs : 0 < bs -> buckets_of_size ((B + 1) * bs) bs = B.
Proof.
  intros Hb. unfold buckets_of_size.
  destruct (N.ltb_spec bs ((B + 1) * bs)) as [L|L].
  - replace (0 <? bs) with true by lia. replace ((B + 1) * bs - bs) with (B * bs) by nia.
    apply N.div_mul. lia.
  - assert (B = 0 \/ 0 < B) as [E|E] by lia; [auto|nia].
Qed.
