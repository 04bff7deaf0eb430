(** visit(). *)
From Verif Require Import Model.Bytes Model.Err Model.Field Model.Format Model.IO
  Model.BulkIO Model.Bucket Model.Recover Model.Visit
  Proofs.BytesFacts Proofs.FieldFacts Proofs.IOFacts Proofs.BulkFacts Proofs.FormatFacts
  Proofs.RefuseFacts SpecFormat SpecHeader SpecVisit.

Definition images (l : list record) : bytes := flat_map image l.

Lemma image_len r : 8 <= blen (image r) \/ exists k v, r = Value k v.
Proof.
  destruct r as [k v|c]; [eauto|]. left. cbn [image]. rewrite <- wr48_be, <- wr16_be, !blen_app, blen_wr48, blen_wr16. lia.
Qed.
Lemma image_pos r : 6 <= blen (image r).
Proof.
  destruct r as [k v|c]; cbn [image]; rewrite <- !wr48_be, !blen_app, blen_wr48; lia.
Qed.

Section Loop.
Variables (cb : callback) (ks : N) (d : bytes) (w : world).
Hypothesis Hw : wget w FDat = Some d.

(** The reader is at offset [off]. *)
Definition at_off (r : breader) (off : N) : Prop :=
  br_inv d r /\ br_file r = FDat /\ br_last r = blen d /\ br_offset r = off.

Lemma at_prepare r off n : at_off r off -> off + n <= blen d ->
  exists r', run (br_prepare r n) w = (w, Ok (bsub off n d, r')) /\ at_off r' (off + n).
Proof using Hw.
  intros (Hi & Hf & Hl & Ho) Hn.
  destruct (run_br_prepare d r w n Hi) as (r' & Hr & Hi' & Ho' & Hf' & Hl').
  - rewrite Hf. exact Hw.
  - lia.
  - exists r'. rewrite Hr, Ho. split; auto. unfold at_off. rewrite Hf', Hl', Ho'. split; [|split; [|split]]; auto. lia.
Qed.

Lemma at_short r off n : at_off r off -> blen d < off + n -> run (br_prepare r n) w = (w, Er short_read).
Proof using Hw.
  intros (Hi & Hf & Hl & Ho) Hn. apply (run_br_prepare_short d); auto. lia.
Qed.

Lemma at_eof r off : at_off r off -> br_eof r = (blen d <=? off).
Proof using Hw. intros (_ & _ & Hl & Ho). unfold br_eof. rewrite Hl, Ho. reflexivity. Qed.

Local Notation step := (visit_step cb ks (blen d)).

(** One value. *)
Lemma visit_value pre k v post t r :
  d = pre ++ image (Value k v) ++ post -> record_ok ks (Value k v) -> at_off r (blen pre) ->
  match cb t k v with
  | Some er => run (step (t, r)) w = (w, inr (Ok (t ++ [VItem k v], Er er)))
  | None => exists r',
      run (step (t, r)) w =
        (w, inl (t ++ [VItem k v; VProgress (blen pre + blen (image (Value k v))) (blen d)], r')) /\
      at_off r' (blen pre + blen (image (Value k v)))
  end.
Proof using Hw.
  intros Hd (Hk & Hv) Hr. cbn [image] in *. change (2 ^ 32) with 4294967296 in Hv.
  assert (L6 : blen (be 6 (blen v)) = 6) by (rewrite <- wr48_be; apply blen_wr48).
  assert (Ld : blen d = blen pre + 6 + blen k + blen v + blen post).
  { rewrite Hd, !blen_app, L6. lia. }
  unfold visit_step. rewrite (at_eof _ _ Hr). replace (blen d <=? blen pre) with false by lia.
  destruct (at_prepare r (blen pre) 6 Hr) as (r1 & Hr1 & Ha1); [lia|].
  assert (E6 : bsub (blen pre) 6 d = wr48 (blen v)).
  { rewrite Hd, wr48_be. rewrite <- app_assoc. apply bsub_app_eq; auto. }
  destruct (at_prepare r1 (blen pre + 6) (ks + blen v) Ha1) as (r2 & Hr2 & Ha2); [lia|].
  assert (EK : bsub (blen pre + 6) (ks + blen v) d = k ++ v).
  { rewrite Hd. rewrite <- !app_assoc. rewrite (app_assoc pre). rewrite (app_assoc k).
    apply bsub_app_eq; rewrite ?blen_app; lia. }
  destruct (cb t k v) as [er|] eqn:Ecb.
  - rewrite run_bind, Hr1, E6. cbv beta iota zeta. rewrite rd_size48_wr48 by lia.
    replace (0 <? blen v) with true by lia.
    rewrite run_bind, Hr2, EK. cbv beta iota zeta.
    rewrite btake_app_eq, bdrop_app_eq by lia. rewrite Ecb. reflexivity.
  - exists r2. split.
    + rewrite run_bind, Hr1, E6. cbv beta iota zeta. rewrite rd_size48_wr48 by lia.
      replace (0 <? blen v) with true by lia.
      rewrite run_bind, Hr2, EK. cbv beta iota zeta.
      rewrite btake_app_eq, bdrop_app_eq by lia. rewrite Ecb. cbn [run].
      destruct Ha2 as (_ & _ & _ & ->). rewrite <- app_assoc. cbn [app].
      replace (blen pre + blen (be 6 (blen v) ++ k ++ v)) with (blen pre + 6 + (ks + blen v))
        by (rewrite !blen_app, L6; lia).
      reflexivity.
    + replace (blen pre + blen (be 6 (blen v) ++ k ++ v)) with (blen pre + 6 + (ks + blen v)); auto.
      rewrite !blen_app, L6. lia.
Qed.

(** One spill record. *)
Lemma visit_spill pre c post t r :
  d = pre ++ image (Spill c) ++ post -> record_ok ks (Spill c) -> at_off r (blen pre) ->
  exists r',
    run (step (t, r)) w =
      (w, inl (t ++ [VProgress (blen pre + blen (image (Spill c))) (blen d)], r')) /\
    at_off r' (blen pre + blen (image (Spill c))).
Proof using Hw.
  intros Hd Hc Hr. cbn [image record_ok] in *. change (2 ^ 16) with 65536 in Hc.
  assert (L6 : blen (be 6 0) = 6) by reflexivity.
  assert (L2 : blen (be 2 (blen c)) = 2) by (rewrite <- wr16_be; reflexivity).
  assert (Ld : blen d = blen pre + 6 + 2 + blen c + blen post).
  { rewrite Hd, !blen_app, L6, L2. lia. }
  unfold visit_step. rewrite (at_eof _ _ Hr). replace (blen d <=? blen pre) with false by lia.
  destruct (at_prepare r (blen pre) 6 Hr) as (r1 & Hr1 & Ha1); [lia|].
  assert (E6 : bsub (blen pre) 6 d = wr48 0).
  { rewrite Hd, wr48_be. rewrite <- app_assoc. apply bsub_app_eq; auto. }
  destruct (at_prepare r1 (blen pre + 6) 2 Ha1) as (r2 & Hr2 & Ha2); [lia|].
  assert (E2 : bsub (blen pre + 6) 2 d = wr16 (blen c)).
  { rewrite Hd, wr16_be. rewrite <- !app_assoc. rewrite (app_assoc pre).
    apply bsub_app_eq; rewrite ?blen_app; lia. }
  destruct (at_prepare r2 (blen pre + 6 + 2) (blen c) Ha2) as (r3 & Hr3 & Ha3); [lia|].
  exists r3. split.
  - rewrite run_bind, Hr1, E6. cbv beta iota zeta. rewrite rd_size48_wr48 by lia.
    change (0 <? 0) with false. cbv iota.
    rewrite run_bind, Hr2, E2. cbv beta iota zeta. rewrite rd_wr16 by lia.
    rewrite run_bind, Hr3. cbv beta iota zeta. cbn [run].
    destruct Ha3 as (_ & _ & _ & ->).
    replace (blen pre + blen (be 6 0 ++ be 2 (blen c) ++ c)) with (blen pre + 6 + 2 + blen c)
      by (rewrite !blen_app, L6, L2; lia).
    reflexivity.
  - replace (blen pre + blen (be 6 0 ++ be 2 (blen c) ++ c)) with (blen pre + 6 + 2 + blen c); auto.
    rewrite !blen_app, L6, L2. lia.
Qed.

(** All complete records, then whatever follows. *)
Lemma visit_records (Q : list vcall -> world -> res (list vcall * res unit) -> Prop) n l : forall pre post t r,
  d = pre ++ images l ++ post -> Forall (record_ok ks) l -> at_off r (blen pre) ->
  (forall t' r', spec_visit cb (blen d) (blen pre) t l = (t', None) ->
    at_off r' (blen pre + blen (images l)) ->
    exists m w' o, (m <= n)%nat /\ loops step m (t', r') w w' o /\ Q t' w' o) ->
  exists m, match spec_visit cb (blen d) (blen pre) t l with
  | (t', Some er) => (m <= length l)%nat /\ loops step m (t, r) w w (Ok (t', Er er))
  | (t', None) => exists w' o, (m <= length l + n)%nat /\ loops step m (t, r) w w' o /\ Q t' w' o
  end.
Proof using Hw.
  induction l as [|x l IH]; intros pre post t r Hd Hok Hr Hrest.
  - cbn [spec_visit]. destruct (Hrest t r) as (m & w' & o & Hm & Hl & HQ); [reflexivity| |].
    + unfold images; simpl. rewrite blen_nil, N.add_0_r. exact Hr.
    + exists m, w', o. auto.
  - inversion Hok as [|? ? Hx Hl]; subst.
    assert (Hd' : d = (pre ++ image x) ++ images l ++ post).
    { rewrite Hd. unfold images. cbn [flat_map]. rewrite <- !app_assoc. reflexivity. }
    assert (Hd2 : d = pre ++ image x ++ (images l ++ post)) by (rewrite Hd', <- app_assoc; auto).
    assert (Ho : blen (pre ++ image x) = blen pre + blen (image x)) by apply blen_app.
    assert (Hi : blen (images (x :: l)) = blen (image x) + blen (images l)) by apply blen_app.
    destruct x as [k v|c].
    + pose proof (visit_value pre k v _ t r Hd2 Hx Hr) as Hs. cbn [spec_visit].
      cbn [spec_visit] in Hrest. destruct (cb t k v) as [er|] eqn:Ecb.
      * exists 1%nat. split; [simpl; lia|]. apply loops_done. exact Hs.
      * destruct Hs as (r' & Hs & Hr').
        destruct (IH (pre ++ image (Value k v)) post
          (t ++ [VItem k v; VProgress (blen pre + blen (image (Value k v))) (blen d)]) r') as (m & Hm); auto.
        -- rewrite Ho. exact Hr'.
        -- intros t' r'' Ht Ha. apply (Hrest t' r''); rewrite ?Ho in *; auto.
           rewrite Hi. replace (blen pre + (blen (image (Value k v)) + blen (images l)))
             with (blen pre + blen (image (Value k v)) + blen (images l)) by lia. exact Ha.
        -- rewrite Ho in Hm. exists (S m).
           destruct (spec_visit _ _ _ _ _) as [t' [er|]].
           ++ destruct Hm as [Hm Hlp]. split; [simpl; lia|]. eapply loops_more; eauto.
           ++ destruct Hm as (w' & o & Hm & Hlp & HQ). exists w', o. split; [simpl; lia|]. split; auto.
              eapply loops_more; eauto.
    + pose proof (visit_spill pre c _ t r Hd2 Hx Hr) as (r' & Hs & Hr'). cbn [spec_visit].
      cbn [spec_visit] in Hrest.
      destruct (IH (pre ++ image (Spill c)) post
        (t ++ [VProgress (blen pre + blen (image (Spill c))) (blen d)]) r') as (m & Hm); auto.
      -- rewrite Ho. exact Hr'.
      -- intros t' r'' Ht Ha. apply (Hrest t' r''); rewrite ?Ho in *; auto.
         rewrite Hi. replace (blen pre + (blen (image (Spill c)) + blen (images l)))
             with (blen pre + blen (image (Spill c)) + blen (images l)) by lia. exact Ha.
      -- rewrite Ho in Hm. exists (S m).
         destruct (spec_visit _ _ _ _ _) as [t' [er|]].
         ++ destruct Hm as [Hm Hlp]. split; [simpl; lia|]. eapply loops_more; eauto.
         ++ destruct Hm as (w' & o & Hm & Hlp & HQ). exists w', o. split; [simpl; lia|]. split; auto.
            eapply loops_more; eauto.
Qed.

Lemma visit_end t r : at_off r (blen d) -> run (step (t, r)) w = (w, inr (Ok (t, Ok tt))).
Proof using Hw.
  intros Hr. unfold visit_step. rewrite (at_eof _ _ Hr). replace (blen d <=? blen d) with true by lia. reflexivity.
Qed.

(** A record cut short. *)
Lemma visit_cut pre x n t r :
  d = pre ++ btake n (image x) -> record_ok ks x -> 0 < n < blen (image x) -> 1 <= ks ->
  at_off r (blen pre) ->
  run (step (t, r)) w = (w, inr (Ok (t, Er match x with
    | Value _ _ => if n <? 6 then short_read else EThrow
    | Spill _ => short_read
    end))).
Proof using Hw.
  intros Hd Hok Hn Hks Hr.
  assert (Ld : blen d = blen pre + n) by (rewrite Hd, blen_app, blen_btake; lia).
  unfold visit_step. rewrite (at_eof _ _ Hr). replace (blen d <=? blen pre) with false by lia.
  destruct (N.ltb_spec n 6) as [L|L].
  { rewrite run_bind, (at_short _ _ _ Hr) by lia. destruct x; reflexivity. }
  destruct (at_prepare r (blen pre) 6 Hr) as (r1 & Hr1 & Ha1); [lia|].
  assert (E6 : bsub (blen pre) 6 d = btake 6 (image x)).
  { rewrite Hd. unfold bsub. rewrite bdrop_app_eq by auto. rewrite btake_btake. f_equal. lia. }
  rewrite run_bind, Hr1, E6. cbv beta iota zeta.
  destruct x as [k v|c]; cbn [image record_ok] in *.
  - assert (L6 : blen (be 6 (blen v)) = 6) by (rewrite <- wr48_be; apply blen_wr48).
    rewrite btake_app_eq by auto. change (2 ^ 32) with 4294967296 in Hok.
    rewrite <- wr48_be, rd_size48_wr48 by lia.
    replace (0 <? blen v) with true by lia.
    rewrite !blen_app, L6 in Hn.
    rewrite run_bind, (at_short _ _ _ Ha1) by lia. reflexivity.
  - assert (L6 : blen (be 6 0) = 6) by reflexivity.
    assert (L2 : blen (be 2 (blen c)) = 2) by (rewrite <- wr16_be; reflexivity).
    rewrite btake_app_eq by auto. change (2 ^ 16) with 65536 in Hok.
    rewrite <- wr48_be, rd_size48_wr48 by lia. change (0 <? 0) with false. cbv iota.
    destruct (N.ltb_spec n 8) as [L'|L'].
    { rewrite run_bind, (at_short _ _ _ Ha1) by lia. reflexivity. }
    destruct (at_prepare r1 (blen pre + 6) 2 Ha1) as (r2 & Hr2 & Ha2); [lia|].
    assert (E2 : bsub (blen pre + 6) 2 d = wr16 (blen c)).
    { rewrite Hd, wr16_be. rewrite bsub_app_r by lia.
      replace (blen pre + 6 - blen pre) with 6 by lia. rewrite bsub_btake by lia.
      apply bsub_app_eq; auto. }
    rewrite run_bind, Hr2, E2. cbv beta iota zeta. rewrite rd_wr16 by lia.
    rewrite !blen_app, L6, L2 in Hn.
    rewrite run_bind, (at_short _ _ _ Ha2) by lia. reflexivity.
Qed.
End Loop.

Lemma images_count l : 6 * blen l <= blen (images l).
Proof.
  induction l as [|r l IH]; [unfold images; simpl; reflexivity || (cbn; lia)|].
  change (images (r :: l)) with (image r ++ images l). rewrite blen_app, blen_cons. pose proof (image_pos r). lia.
Qed.

Definition finish (x : list vcall * option err) (rest : res unit) : list vcall * res unit :=
  match x with (t, Some er) => (t, Er er) | (t, None) => (t, rest) end.

Section File.
Variables (cb : callback) (w : world) (hdr : bytes) (l : list record) (tail : bytes).
Let d := hdr ++ images l ++ tail.
Let ks := num_at 26 2 d.
Hypothesis Hw : w_dat w = Some d.
Hypothesis Hh : blen hdr = 92.
Hypothesis Hb : bytes_ok hdr.
Hypothesis Hc : first_failed (dat_checks d) = None.
Hypothesis Hl : Forall (record_ok ks) l.
Hypothesis Hs : blen d < 2 ^ 64.

Lemma head_of : bsub 0 92 d = hdr.
Proof using Hh. unfold d. rewrite bsub_0. apply btake_app_eq. auto. Qed.

Lemma visit_start : verify_dat (dh_of d) = Ok tt /\ dh_key_size (dh_of d) = ks /\ 1 <= ks.
Proof using Hh Hb Hc.
  clear Hs Hl Hw. (* only the first 92 bytes are looked at *)
  assert (Dl : dat_hdr_size <= blen d) by (unfold d; rewrite blen_app; unfold dat_hdr_size; lia).
  assert (Hd' : dh_of d = dh_of hdr).
  { unfold dh_of, dat_hdr_size. rewrite head_of, <- Hh, bsub_all. reflexivity. }
  assert (Ec : dat_checks d = dat_checks hdr).
  { unfold dat_checks, text, num_at. unfold blen in Hh.
    assert (Eb : forall o n, (o + n <= 92)%nat -> bytes_at o n d = bytes_at o n hdr).
    { intros o n Hon. unfold d. rewrite <- (at_take o n 92 (hdr ++ _)) by auto.
      rewrite firstn_app. replace (92 - length hdr)%nat with 0%nat by lia.
      rewrite app_nil_r. rewrite at_take by auto. reflexivity. }
    rewrite !Eb by (simpl; lia). reflexivity. }
  assert (Ek : ks = num_at 26 2 hdr).
  { unfold ks, num_at. unfold blen in Hh.
    unfold d. rewrite <- (at_take 26 2 92 (hdr ++ _)) by lia.
    rewrite firstn_app. replace (92 - length hdr)%nat with 0%nat by lia.
    rewrite app_nil_r. rewrite at_take by lia. reflexivity. }
  rewrite Ec in Hc. rewrite Hd'.
  assert (Dl' : dat_hdr_size <= blen hdr) by (unfold dat_hdr_size; lia).
  rewrite (dat_verdict hdr Hb Dl'). unfold verdict. rewrite Hc. split; auto.
  assert (Ek2 : dh_key_size (dh_of hdr) = ks).
  { rewrite Ek. unfold dh_of, dec_dat_header. cbn [dh_key_size]. rewrite f16; auto; unfold dat_hdr_size; lia. }
  split; auto.
  unfold dat_checks in Hc. cbn [first_failed] in Hc.
  destruct (text 0 dat_type hdr); [|discriminate]. destruct (num_at 8 2 hdr =? 2); [|discriminate].
  destruct (N.leb_spec 1 (num_at 26 2 hdr)); [|discriminate]. rewrite Ek. auto.
Qed.

Lemma visit_run n (rest : res unit) :
  (n <= 1)%nat ->
  (forall t r, at_off d r (92 + blen (images l)) ->
    exists m, (m <= n)%nat /\ loops (visit_step cb ks (blen d)) m (t, r) w w (Ok (t, rest))) ->
  run (visit cb) w =
    (w, Ok (finish (spec_visit cb (blen d) 92 [VProgress 0 (blen d)] l) rest)).
Proof using All.
  intros Hn Hrest. destruct visit_start as (Hv & Hks & _).
  assert (Dl : dat_hdr_size <= blen d) by (unfold d; rewrite blen_app; unfold dat_hdr_size; lia).
  unfold visit. rewrite run_bind.
  rewrite (run_ebind_ok _ _ _ _ _ (run_open FDat w d Hw)).
  rewrite (run_ebind_ok _ _ _ _ _ (read_dat d Dl w Hw)). rewrite Hv.
  rewrite (run_ebind_ok (plift (Ok tt)) _ w w tt eq_refl).
  rewrite (run_ebind_ok _ _ _ _ _ (run_sz FDat w d Hw)). rewrite Hks.
  change (run (pret (ks, blen d)) w) with (w, @Ok (N * N) (ks, blen d)). cbv beta iota zeta.
  destruct (visit_records cb ks d w Hw
    (fun t' w' o => w' = w /\ o = Ok (t', rest)) n l hdr tail [VProgress 0 (blen d)]
    (br_make FDat dat_hdr_size (blen d) visit_read_size)) as (m & Hm).
  - reflexivity.
  - exact Hl.
  - unfold at_off. rewrite br_make_offset, Hh. split; [|split; [|split]]; try reflexivity.
    apply br_make_inv; [exact Dl|apply N.le_refl].
  - intros t' r' _ Ha. rewrite Hh in Ha. destruct (Hrest t' r' Ha) as (m & Hm & Hlp).
    exists m, w, (Ok (t', rest)). auto.
  - rewrite Hh in Hm. pose proof (images_count l) as Hcnt.
    assert (blen (images l) <= blen d) by (unfold d; rewrite !blen_app; lia).
    change (2 ^ 64) with 18446744073709551616 in Hs.
    unfold blen at 1 in Hcnt. destruct (spec_visit _ _ _ _ _) as [t' [er|]]; cbn [finish].
    + destruct Hm as [Hm Hlp]. eapply loop_run; eauto. lia.
    + destruct Hm as (w' & o & Hm & Hlp & -> & ->). eapply loop_run; eauto. lia.
Qed.
End File.

Lemma visit_file cb w hdr l :
  let d := hdr ++ images l in
  w_dat w = Some d -> blen hdr = 92 -> bytes_ok hdr -> first_failed (dat_checks d) = None ->
  Forall (record_ok (num_at 26 2 d)) l -> blen d < 2 ^ 64 ->
  run (visit cb) w =
    (w, Ok (finish (spec_visit cb (blen d) 92 [VProgress 0 (blen d)] l) (Ok tt))).
Proof.
  intros d Hw Hh Hb Hc Hl Hs.
  assert (E : d = hdr ++ images l ++ []) by (rewrite app_nil_r; reflexivity).
  rewrite E in Hw, Hc, Hl, Hs |- *.
  apply (visit_run cb w hdr l [] Hw Hh Hb Hc Hl Hs 1); auto.
  intros t r Ha. exists 1%nat. split; auto. apply loops_done.
  apply visit_end; auto.
  replace (92 + blen (images l)) with (blen (hdr ++ images l ++ [])) in Ha; auto.
  rewrite !blen_app, blen_nil, Hh. lia.
Qed.

Lemma visit_truncated cb w hdr l x n :
  let d := hdr ++ images l ++ btake n (image x) in
  w_dat w = Some d -> blen hdr = 92 -> bytes_ok hdr -> first_failed (dat_checks d) = None ->
  Forall (record_ok (num_at 26 2 d)) (l ++ [x]) -> 0 < n < blen (image x) -> blen d < 2 ^ 64 ->
  run (visit cb) w =
    (w, Ok (finish (spec_visit cb (blen d) 92 [VProgress 0 (blen d)] l)
      (Er match x with
          | Value _ _ => if n <? 6 then short_read else EThrow
          | Spill _ => short_read
          end))).
Proof.
  intros d Hw Hh Hb Hc Hl Hn Hs. apply Forall_app in Hl as [Hl Hx]. inversion Hx as [|? ? Hx' _]; subst x0 l0.
  apply (visit_run cb w hdr l (btake n (image x)) Hw Hh Hb Hc Hl Hs 1); auto.
  intros t r Ha. exists 1%nat. split; auto. apply loops_done. fold d in Ha |- *.
  apply (visit_cut cb (num_at 26 2 d) d w Hw (hdr ++ images l) x n t r); auto.
  - unfold d. rewrite app_assoc. reflexivity.
  - apply (visit_start hdr l (btake n (image x)) Hh Hb Hc).
  - rewrite blen_app, Hh. exact Ha.
Qed.

(** A data file has one reading as records. *)
Lemma image_app_inj ks a b x y : record_ok ks a -> record_ok ks b -> image a ++ x = image b ++ y -> a = b /\ x = y.
Proof.
  assert (L6 : forall n, blen (be 6 n) = 6) by (intros; rewrite <- wr48_be; apply blen_wr48).
  assert (L2 : forall n, blen (be 2 n) = 2) by (intros; rewrite <- wr16_be; apply blen_wr16).
  assert (S6 : forall n m u v, n < 4294967296 -> m < 4294967296 -> be 6 n ++ u = be 6 m ++ v -> n = m /\ u = v).
  { intros n m u v Hn Hm E. pose proof (f_equal (btake 6) E) as E1. pose proof (f_equal (bdrop 6) E) as E2.
    rewrite !btake_app_eq in E1 by (rewrite L6; auto). rewrite !bdrop_app_eq in E2 by (rewrite L6; auto).
    split; auto. rewrite <- (rd_size48_wr48 n), <- (rd_size48_wr48 m) by auto. rewrite !wr48_be, E1. auto. }
  destruct a as [k v|c], b as [k' v'|c']; cbn [record_ok image]; change (2 ^ 32) with 4294967296; change (2 ^ 16) with 65536;
    intros Ha Hb E; rewrite <- !app_assoc in E; apply S6 in E as [E1 E2]; try lia.
  - destruct Ha as [Ha _], Hb as [Hb _].
    pose proof (f_equal (btake ks) E2) as F1. pose proof (f_equal (bdrop ks) E2) as F2.
    rewrite !btake_app_eq in F1 by auto. rewrite !bdrop_app_eq in F2 by auto. subst k'.
    pose proof (f_equal (btake (blen v)) F2) as F3. pose proof (f_equal (bdrop (blen v)) F2) as F4.
    rewrite !btake_app_eq in F3 by auto. rewrite !bdrop_app_eq in F4 by auto. subst v'. auto.
  - pose proof (f_equal (btake 2) E2) as F1. pose proof (f_equal (bdrop 2) E2) as F2.
    rewrite !btake_app_eq in F1 by (rewrite L2; auto). rewrite !bdrop_app_eq in F2 by (rewrite L2; auto).
    assert (G : blen c = blen c').
    { rewrite <- (rd_wr16 (blen c)), <- (rd_wr16 (blen c')) by auto. rewrite !wr16_be, F1. auto. }
    pose proof (f_equal (btake (blen c)) F2) as F3. pose proof (f_equal (bdrop (blen c)) F2) as F4.
    rewrite !btake_app_eq in F3 by auto. rewrite !bdrop_app_eq in F4 by auto. subst c'. auto.
Qed.

Lemma images_inj ks l : forall l', Forall (record_ok ks) l -> Forall (record_ok ks) l' ->
  images l = images l' -> l = l'.
Proof.
  induction l as [|r l IH]; intros [|r' l'] Hl Hl' E; auto.
  - exfalso. apply (f_equal (@blen N)) in E. change (images (r' :: l')) with (image r' ++ images l') in E.
    rewrite blen_app in E. pose proof (image_pos r'). change (blen (images [])) with 0 in E. lia.
  - exfalso. apply (f_equal (@blen N)) in E. change (images (r :: l)) with (image r ++ images l) in E.
    rewrite blen_app in E. pose proof (image_pos r). change (blen (images [])) with 0 in E. lia.
  - inversion Hl; inversion Hl'; subst.
    change (images (r :: l)) with (image r ++ images l) in E. change (images (r' :: l')) with (image r' ++ images l') in E.
    apply (image_app_inj ks) in E as [-> E]; auto. f_equal. auto.
Qed.

Lemma visit_refused cb w :
  (w_dat w = None -> run (visit cb) w = (w, Ok ([], Er ENoEnt))) /\
  (forall d, w_dat w = Some d -> blen d < 92 -> run (visit cb) w = (w, Ok ([], Er short_read))) /\
  (forall d er, w_dat w = Some d -> bytes_ok d -> 92 <= blen d -> first_failed (dat_checks d) = Some er ->
    run (visit cb) w = (w, Ok ([], Er er))).
Proof.
  unfold visit. split; [|split].
  - intros Hd. rewrite run_bind, (run_ebind_er _ _ _ _ _ (run_open_none FDat w Hd)). reflexivity.
  - intros d Hd Hl. rewrite run_bind, (run_ebind_ok _ _ _ _ _ (run_open FDat w d Hd)).
    assert (X : run read_dat_header w = (w, Er short_read)).
    { unfold read_dat_header. rewrite (run_ebind_er _ _ _ _ _ (run_header_short FDat _ w d Hd Hl)). reflexivity. }
    rewrite (run_ebind_er _ _ _ _ _ X). reflexivity.
  - intros d er Hd Hb Hl Hc. rewrite run_bind, (run_ebind_ok _ _ _ _ _ (run_open FDat w d Hd)).
    rewrite (run_ebind_ok _ _ _ _ _ (read_dat d Hl w Hd)). rewrite (dat_verdict d Hb Hl). unfold verdict. rewrite Hc.
    reflexivity.
Qed.
