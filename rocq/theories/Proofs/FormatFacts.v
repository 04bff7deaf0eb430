(** The model's images against the format specification. *)
From Verif Require Import Model.Bytes Model.Err Model.Field Model.Format Model.IO Model.BulkIO
  Model.Bucket Model.Recover SpecFormat SpecBuffer
  Proofs.BytesFacts Proofs.FieldFacts Proofs.IOFacts Proofs.BucketFacts Proofs.BulkFacts
  Proofs.HashFacts Proofs.HeaderFacts.

Transparent wr16 wr24 wr32 wr48 wr64 rd16 rd24 rd32 rd48 rd64 rd_size48.

Lemma wr16_be n : wr16 n = be 2 n.
Proof. unfold wr16, be. simpl map. rewrite !byte_of_spec. reflexivity. Qed.
Lemma wr24_be n : wr24 n = be 3 n.
Proof. unfold wr24, be. simpl map. rewrite !byte_of_spec. reflexivity. Qed.
Lemma wr32_be n : wr32 n = be 4 n.
Proof. unfold wr32, be. simpl map. rewrite !byte_of_spec. reflexivity. Qed.
Lemma wr48_be n : wr48 n = be 6 n.
Proof. unfold wr48, be. simpl map. rewrite !byte_of_spec. reflexivity. Qed.
Lemma wr64_be n : wr64 n = be 8 n.
Proof. unfold wr64, be. simpl map. rewrite !byte_of_spec. reflexivity. Qed.

Ltac bytes_list :=
  repeat match goal with
  | H : bytes_ok _ |- _ => unfold bytes_ok in H
  | H : Forall _ (_ :: _) |- _ => inversion H; clear H; subst
  end.

Lemma rd16_be l : bytes_ok l -> length l = 2%nat -> rd16 l = be_value l.
Proof.
  intros Hb Hl. destruct l as [|a [|b [|]]]; try discriminate. bytes_list.
  rewrite rd16_list by auto. unfold be_value. cbn [fold_left]. lia.
Qed.
Lemma rd24_be l : bytes_ok l -> length l = 3%nat -> rd24 l = be_value l.
Proof.
  intros Hb Hl. destruct l as [|a [|b [|c [|]]]]; try discriminate. bytes_list.
  rewrite rd24_list by auto. unfold be_value. cbn [fold_left]. lia.
Qed.
Lemma rd32_be l : bytes_ok l -> length l = 4%nat -> rd32 l = be_value l.
Proof.
  intros Hb Hl. destruct l as [|a [|b [|c [|d [|]]]]]; try discriminate. bytes_list.
  rewrite rd32_list by auto. unfold be_value. cbn [fold_left]. lia.
Qed.
Lemma rd48_be l : bytes_ok l -> length l = 6%nat -> rd48 l = be_value l.
Proof.
  intros Hb Hl. destruct l as [|a [|b [|c [|d [|x [|y [|]]]]]]]; try discriminate. bytes_list.
  rewrite rd48_list by auto. unfold be_value. cbn [fold_left]. lia.
Qed.
Lemma rd64_be l : bytes_ok l -> length l = 8%nat -> rd64 l = be_value l.
Proof.
  intros Hb Hl. destruct l as [|a [|b [|c [|d [|x [|y [|z [|u [|]]]]]]]]]; try discriminate. bytes_list.
  rewrite rd64_list by auto. unfold be_value. cbn [fold_left]. lia.
Qed.

Lemma field_roundtrip :
  (forall n, n < 2 ^ 16 -> wr16 n = be 2 n /\ rd16 (wr16 n) = n) /\
  (forall n, n < 2 ^ 24 -> wr24 n = be 3 n /\ rd24 (wr24 n) = n) /\
  (forall n, n < 2 ^ 32 -> wr32 n = be 4 n /\ rd32 (wr32 n) = n) /\
  (forall n, n < 2 ^ 48 -> wr48 n = be 6 n /\ rd48 (wr48 n) = n) /\
  (forall n, n < 2 ^ 32 -> wr48 n = be 6 n /\ rd_size48 (wr48 n) = n) /\
  (forall n, n < 2 ^ 64 -> wr64 n = be 8 n /\ rd64 (wr64 n) = n).
Proof.
  splits; intros n Hn; split;
    auto using wr16_be, wr24_be, wr32_be, wr48_be, wr64_be, rd_wr16, rd_wr24, rd_wr32, rd_wr48,
      rd_wr64, rd_size48_wr48.
Qed.

Lemma field_read : forall l, bytes_ok l ->
  (length l = 2%nat -> rd16 l = be_value l) /\ (length l = 3%nat -> rd24 l = be_value l) /\
  (length l = 4%nat -> rd32 l = be_value l) /\ (length l = 6%nat -> rd48 l = be_value l) /\
  (length l = 8%nat -> rd64 l = be_value l).
Proof. intros; splits; auto using rd16_be, rd24_be, rd32_be, rd48_be, rd64_be. Qed.

(** ** ceil_pow2 and bucket_index *)
Lemma ceil_pow2_least x : 0 < x -> x <= 2 ^ 63 ->
  exists k, ceil_pow2 x = 2 ^ k /\ x <= 2 ^ k /\ forall j, x <= 2 ^ j -> 2 ^ k <= 2 ^ j.
Proof.
  intros H0 H1. destruct (ceil_pow2_ok x H0) as (k & Hk & Hle & Hlt).
  { change 18446744073709551616 with (2 * 2 ^ 63). lia. }
  exists k. rewrite <- Hk. splits; auto. intros j Hj.
  destruct (N.le_gt_cases (2 ^ k) (2 ^ j)) as [?|L]; [lia|].
  assert (Hjk : j < k) by (apply (N.pow_lt_mono_r_iff 2); lia).
  assert (2 ^ (N.succ j) <= 2 ^ k) by (apply N.pow_le_mono_r; lia).
  rewrite N.pow_succ_r' in *. lia.
Qed.

Lemma index_in_range h B : 0 < B -> B < 2 ^ 63 -> bucket_index h B (ceil_pow2 B) < B.
Proof. intros H0 H1. apply bucket_index_lt, ceil_pow2_ok; auto. change (2 ^ 63) with 9223372036854775808 in *. lia. Qed.

Lemma index_grow h B : 0 < B -> B < 2 ^ 63 ->
  let M := ceil_pow2 B in
  let M' := if B =? M then M * 2 else M in
  M' = ceil_pow2 (B + 1) /\
  (bucket_index h (B + 1) M' = bucket_index h B M \/
   (bucket_index h B M = B - M' / 2 /\ bucket_index h (B + 1) M' = B)).
Proof.
  change (2 ^ 63) with 9223372036854775808. intros H0 H1 M M'.
  pose proof (ceil_pow2_ok B H0 ltac:(lia)) as Hp. fold M in Hp.
  pose proof (pow_ok_grow B M Hp) as Hg. fold M' in Hg.
  split.
  - eapply pow_ok_unique; [exact Hg|]. apply ceil_pow2_ok; lia.
  - pose proof (bucket_index_grow h B M Hp) as X. cbv zeta in X. fold M' in X. tauto.
Qed.

(** ** Buckets *)
Definition entry_of (x : N * N * N) : entry := let '(o, s, h) := x in Entry o s h.

Lemma bucket_image_enc es spill :
  bucket_image es spill = enc_bucket (map entry_of es) spill.
Proof.
  unfold bucket_image, enc_bucket. unfold blen. rewrite map_length, wr16_be, wr48_be. f_equal. f_equal.
  unfold enc_entries. induction es as [|[[o s] h] es IH]; [reflexivity|].
  cbn [map flat_map entry_of]. rewrite IH. f_equal.
  unfold entry_image, enc_entry. cbn [en_off en_size en_hash]. rewrite !wr48_be. reflexivity.
Qed.

(** The bucket object [b] for blocks of [bs] bytes holds the entries [es]
    (offset, size, hash) and the spill offset [spill]. *)
Definition is_bucket (bs : N) (b : bucket) (es : list (N * N * N)) (spill : N) : Prop :=
  bk_size b = N.of_nat (length es) /\ bk_spill b = spill /\
  (exists pad, bk_blob b = bucket_image es spill ++ pad) /\ blen (bk_blob b) = bs /\
  Forall (fun x => let '(o, s, h) := x in o < 2 ^ 48 /\ s < 2 ^ 32 /\ h < 2 ^ 48) es /\
  spill < 2 ^ 48 /\ N.of_nat (length es) <= capacity bs.

Lemma capacity_eq bs : 104 <= bs -> bucket_capacity bs = capacity bs.
Proof.
  intros. unfold bucket_capacity, capacity, key_hdr_size.
  replace (bs <? 104) with false by lia. replace (bs <? 2 + 6) with false by lia. reflexivity.
Qed.

Lemma is_bucket_rep bs b es spill : 104 <= bs ->
  is_bucket bs b es spill <-> bk_rep bs b (map entry_of es) spill.
Proof.
  intros Hb. unfold is_bucket. rewrite bucket_image_enc, <- (capacity_eq bs Hb).
  assert (X : blen (map entry_of es) = N.of_nat (length es)) by (unfold blen; rewrite map_length; auto).
  assert (Y : Forall (fun x => let '(o, s, h) := x in o < 2 ^ 48 /\ s < 2 ^ 32 /\ h < 2 ^ 48) es
    <-> Forall entry_ok (map entry_of es)).
  { rewrite Forall_map. split; apply Forall_impl; intros [[o s] h]; unfold entry_ok; simpl; auto. }
  split.
  - intros (A & B & C & D & E & F & G). constructor; auto; try (rewrite X; auto). apply Y; auto.
  - intros [A B C D E F G]. rewrite X in *. splits; auto. apply Y; auto.
Qed.

Lemma by_hash_sorted es : by_hash es <-> ssorted (map entry_of es).
Proof.
  unfold by_hash, ssorted. induction es as [|[[o s] h] es IH].
  - split; constructor.
  - cbn [map]. split; intros H; inversion H; subst; constructor; try (apply IH; auto).
    + rewrite Forall_map. eapply Forall_impl; [|eauto]. intros [[o' s'] h']. simpl. auto.
    + match goal with X : Forall _ (map _ _) |- _ => rewrite Forall_map in X; rename X into Y end.
      eapply Forall_impl; [|exact Y]. intros [[o' s'] h']. simpl. auto.
Qed.

(** Number of entries with a hash below [h]. *)
Definition below (h : N) (es : list (N * N * N)) : nat :=
  length (filter (fun x => hash_of x <? h) es).

Lemma below_lb h es : by_hash es -> N.of_nat (below h es) = lb (map entry_of es) h.
Proof.
  unfold below. induction 1 as [|[[o s] h'] es Hs IH Hx]; [reflexivity|].
  cbn [map filter lb entry_of en_hash hash_of snd]. destruct (h' <? h) eqn:E.
  - cbn [length]. lia.
  - replace (filter (fun x => hash_of x <? h) es) with (@nil (N * N * N)); [reflexivity|].
    clear IH Hs. induction Hx as [|y es Hy _ IH]; auto. cbn [filter].
    simpl in Hy. replace (hash_of y <? h) with false by lia. auto.
Qed.

Lemma bucket_search bs b es spill h : 104 <= bs -> is_bucket bs b es spill -> by_hash es ->
  bk_lower_bound b h = N.of_nat (below h es).
Proof.
  intros Hb Hi Hs. rewrite below_lb by auto. apply is_bucket_rep in Hi; auto.
  eapply lower_bound_rep; eauto. apply by_hash_sorted; auto.
Qed.

Lemma map_ins es x : map entry_of (firstn (below (hash_of x) es) es ++ x :: skipn (below (hash_of x) es) es) =
  btake (N.of_nat (below (hash_of x) es)) (map entry_of es) ++
  entry_of x :: bdrop (N.of_nat (below (hash_of x) es)) (map entry_of es).
Proof.
  rewrite map_app. cbn [map]. unfold btake, bdrop. rewrite !Nnat.Nat2N.id, firstn_map, skipn_map. auto.
Qed.

Lemma bucket_insert bs b es spill o s h :
  104 <= bs <= 65535 -> is_bucket bs b es spill -> by_hash es -> N.of_nat (length es) < capacity bs ->
  o < 2 ^ 48 -> s < 2 ^ 32 -> h < 2 ^ 48 ->
  let es' := firstn (below h es) es ++ (o, s, h) :: skipn (below h es) es in
  exists b', bk_insert b o s h = Ok b' /\ is_bucket bs b' es' spill /\ by_hash es'.
Proof.
  intros [Hb Hb2] Hi Hs Hc Ho Hz Hh es'.
  assert (E : map entry_of es' = ins (map entry_of es) (Entry o s h)).
  { rewrite ins_eq. cbn [en_hash]. rewrite <- (below_lb h es Hs). exact (map_ins es (o, s, h)). }
  apply is_bucket_rep in Hi; auto. apply by_hash_sorted in Hs.
  destruct (bk_insert_rep bs b _ spill o s h Hi Hs) as (b' & Hr & Hrep).
  - unfold blen. rewrite map_length, capacity_eq; auto.
  - auto.
  - unfold entry_ok. auto.
  - exists b'. splits; auto.
    + apply is_bucket_rep; auto. rewrite E. auto.
    + apply by_hash_sorted. rewrite E. apply ins_sorted; auto.
Qed.

Lemma bucket_erase bs b es spill i :
  104 <= bs -> is_bucket bs b es spill -> (i < length es)%nat ->
  is_bucket bs (bk_erase b (N.of_nat i)) (firstn i es ++ skipn (S i) es) spill.
Proof.
  intros Hb Hi Hl. apply is_bucket_rep in Hi; auto. apply is_bucket_rep; auto.
  rewrite map_app, <- firstn_map, <- skipn_map.
  pose proof (erase_rep bs b _ spill (N.of_nat i) Hi) as X.
  unfold btake, bdrop, blen in X. rewrite map_length in X.
  replace (N.to_nat (N.of_nat i + 1)) with (S i) in X by lia. rewrite Nnat.Nat2N.id in X.
  apply X. lia.
Qed.

Lemma bucket_at bs b es spill i x :
  104 <= bs -> is_bucket bs b es spill -> nth_error es i = Some x ->
  bk_at b (N.of_nat i) = entry_of x.
Proof.
  intros Hb Hi Hx. apply is_bucket_rep in Hi; auto.
  rewrite (bk_at_rep _ _ _ _ _ Hi).
  - unfold nthN. rewrite Nnat.Nat2N.id. apply nth_error_nth. rewrite nth_error_map, Hx. reflexivity.
  - unfold blen. rewrite map_length.
    assert (i < length es)%nat by (apply nth_error_Some; congruence). lia.
Qed.

(** ** Buffered access *)

(** Reading pieces of the given sizes one after the other. *)
Fixpoint read_pieces (r : breader) (ns : list N) : prog (res (list bytes)) :=
  match ns with
  | [] => pret []
  | n :: ns' =>
    '(d, r) <- br_prepare r n ;;
    ds <- read_pieces r ns' ;;
    pret (d :: ds)
  end.

Lemma read_pieces_ok c w ns : forall r,
  br_inv c r -> wget w (br_file r) = Some c ->
  run (read_pieces r ns) w =
  (w, if br_offset r + total ns <=? br_last r then Ok (pieces (br_offset r) c ns) else Er short_read).
Proof.
  induction ns as [|n ns IH]; intros r Hi Hw.
  - cbn [read_pieces total pieces]. destruct Hi as [? ? ? ?]. unfold br_offset in *.
    replace (br_off r - blen (br_avail r) + 0 <=? br_last r) with true by lia. reflexivity.
  - cbn [read_pieces total pieces].
    destruct (N.le_gt_cases (br_offset r + n) (br_last r)) as [L|L].
    + destruct (run_br_prepare c r w n Hi Hw L) as (r' & Hr & Hi' & Ho & Hf & Hl).
      rewrite (run_ebind_ok _ _ _ _ _ Hr). cbv beta iota.
      assert (Hw' : wget w (br_file r') = Some c) by (rewrite Hf; auto).
      specialize (IH r' Hi' Hw'). rewrite Ho, Hl in IH.
      replace (br_offset r + (n + total ns)) with (br_offset r + n + total ns) by lia.
      destruct (br_offset r + n + total ns <=? br_last r).
      * rewrite (run_ebind_ok _ _ _ _ _ IH). reflexivity.
      * rewrite (run_ebind_er _ _ _ _ _ IH). reflexivity.
    + rewrite (run_ebind_er _ _ _ _ _ (run_br_prepare_short c r w n Hi L)).
      replace (br_offset r + (n + total ns) <=? br_last r) with false by lia. reflexivity.
Qed.

Lemma bulk_read f c off last n ns w :
  wget w f = Some c -> off <= last -> last <= blen c ->
  run (read_pieces (br_make f off last n) ns) w =
  (w, if off + total ns <=? last then Ok (pieces off c ns) else Er short_read).
Proof.
  intros Hw Ho Hl. rewrite (read_pieces_ok c w ns); auto using br_make_inv.
  rewrite br_make_offset. reflexivity.
Qed.

(** Writing pieces one after the other; also the offsets reported before each. *)
Fixpoint put_pieces (b : bwriter) (ds : list bytes) : prog (res (list N * bwriter)) :=
  match ds with
  | [] => pret ([], b)
  | d :: ds' =>
    let off := bw_offset b in
    b <- bw_put b d ;;
    '(offs, b) <- put_pieces b ds' ;;
    pret (off :: offs, b)
  end.

Definition write_pieces (f : fname) (off n : N) (ds : list bytes) : prog (res (list N)) :=
  '(offs, b) <- put_pieces (bw_make f true off n) ds ;;
  bw_flush b ;;;
  pret offs.

Lemma put_pieces_ok f ds : forall w b c, bw_inv f w b c ->
  exists x b', run (put_pieces b ds) w = (wset w f (Some x), Ok (positions (blen c) ds, b')) /\
    bw_inv f (wset w f (Some x)) b' (c ++ concat ds).
Proof.
  induction ds as [|d ds IH]; intros w b c Hi.
  - destruct Hi as [Hf Ha (x & Hx & Hrest)]. exists x, b.
    assert (E : wset w f (Some x) = w) by (rewrite <- Hx; apply wset_same).
    rewrite E. split; [reflexivity|]. simpl concat. rewrite app_nil_r. constructor; eauto.
  - cbn [put_pieces concat positions]. rewrite (bw_offset_inv _ _ _ _ Hi).
    destruct (run_bw_put f w b c d Hi) as (x & b1 & Hr & Hi1 & _).
    destruct (IH _ _ _ Hi1) as (y & b2 & Hr2 & Hi2).
    rewrite wset_wset in Hr2, Hi2. exists y, b2.
    rewrite (run_ebind_ok _ _ _ _ _ Hr), (run_ebind_ok _ _ _ _ _ Hr2).
    rewrite blen_app, <- app_assoc in *. split; auto.
Qed.

Lemma bulk_write f c n ds w :
  wget w f = Some c ->
  run (write_pieces f (blen c) n ds) w =
  (wset w f (Some (c ++ concat ds)), Ok (positions (blen c) ds)).
Proof.
  intros Hw. unfold write_pieces.
  destruct (put_pieces_ok f ds w _ c (bw_make_inv f w c n Hw)) as (x & b & Hr & Hi).
  rewrite (run_ebind_ok _ _ _ _ _ Hr). cbv beta iota.
  destruct (run_bw_flush _ _ _ _ Hi) as (b' & Hf & _).
  rewrite (run_ebind_ok _ _ _ _ _ Hf). rewrite wset_wset. reflexivity.
Qed.

(** ** Headers *)
Lemma dat_header_roundtrip h :
  dh_version h < 2 ^ 16 -> dh_uid h < 2 ^ 64 -> dh_appnum h < 2 ^ 64 -> dh_key_size h < 2 ^ 16 ->
  enc_dat_header h = magic_dat ++ be 2 (dh_version h) ++ be 8 (dh_uid h) ++ be 8 (dh_appnum h) ++
    be 2 (dh_key_size h) ++ zeros 64 /\
  dec_dat_header (enc_dat_header h) =
    DatHeader magic_dat (dh_version h) (dh_uid h) (dh_appnum h) (dh_key_size h).
Proof.
  intros. split.
  - unfold enc_dat_header. rewrite !wr16_be, !wr64_be. reflexivity.
  - apply dec_enc_dat. unfold dat_fits. auto.
Qed.

Lemma key_header_roundtrip h buckets :
  kh_version h < 2 ^ 16 -> kh_uid h < 2 ^ 64 -> kh_appnum h < 2 ^ 64 -> kh_key_size h < 2 ^ 16 ->
  kh_salt h < 2 ^ 64 -> kh_pepper h < 2 ^ 64 -> kh_load_factor h < 2 ^ 16 ->
  104 <= kh_block_size h < 2 ^ 16 ->
  enc_key_header h = magic_key ++ be 2 (kh_version h) ++ be 8 (kh_uid h) ++ be 8 (kh_appnum h) ++
    be 2 (kh_key_size h) ++ be 8 (kh_salt h) ++ be 8 (kh_pepper h) ++ be 2 (kh_block_size h) ++
    be 2 (kh_load_factor h) ++ zeros 56 /\
  dec_key_header (enc_key_header h) ((buckets + 1) * kh_block_size h) =
    KeyHeader magic_key (kh_version h) (kh_uid h) (kh_appnum h) (kh_key_size h) (kh_salt h)
      (kh_pepper h) (kh_block_size h) (kh_load_factor h) (capacity (kh_block_size h))
      buckets (ceil_pow2 buckets).
Proof.
  intros ? ? ? ? ? ? ? [? ?]. split.
  - unfold enc_key_header. rewrite !wr16_be, !wr64_be. reflexivity.
  - rewrite dec_enc_key by (unfold key_fits; splits; auto).
    rewrite buckets_of_kfile, capacity_eq by lia. reflexivity.
Qed.

Lemma log_header_roundtrip h :
  lh_version h < 2 ^ 16 -> lh_uid h < 2 ^ 64 -> lh_appnum h < 2 ^ 64 -> lh_key_size h < 2 ^ 16 ->
  lh_salt h < 2 ^ 64 -> lh_pepper h < 2 ^ 64 -> lh_block_size h < 2 ^ 16 ->
  lh_key_file_size h < 2 ^ 64 -> lh_dat_file_size h < 2 ^ 64 ->
  enc_log_header h = magic_log ++ be 2 (lh_version h) ++ be 8 (lh_uid h) ++ be 8 (lh_appnum h) ++
    be 2 (lh_key_size h) ++ be 8 (lh_salt h) ++ be 8 (lh_pepper h) ++ be 2 (lh_block_size h) ++
    be 8 (lh_key_file_size h) ++ be 8 (lh_dat_file_size h) /\
  dec_log_header (enc_log_header h) =
    LogHeader magic_log (lh_version h) (lh_uid h) (lh_appnum h) (lh_key_size h) (lh_salt h)
      (lh_pepper h) (lh_block_size h) (lh_key_file_size h) (lh_dat_file_size h).
Proof.
  intros. split.
  - unfold enc_log_header. rewrite !wr16_be, !wr64_be. reflexivity.
  - apply dec_enc_log. unfold log_fits. splits; auto.
Qed.
