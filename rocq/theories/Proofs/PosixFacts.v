(** The loops of posix_file. *)
From Verif Require Import Model.Bytes Model.Err Model.IO Model.Posix Proofs.BytesFacts Proofs.IOFacts.

Lemma posix_read_ok os : forall c off len buf,
  match posix_read os c off len buf with
  | (Done, b) => (len = 0 \/ off + len <= blen c) /\ b = buf ++ bsub off len c
  | (Short, b) => 0 < len /\ blen c < off + len /\ b = buf ++ bsub off (blen c - off) c
  | (Failed ev, b) => In (SysErr ev) os /\ ev <> EINTR /\ exists n, n <= len /\ b = buf ++ bsub off n c
  | (Waiting, b) => 0 < len /\ exists n, n <= len /\ b = buf ++ bsub off n c
  end.
Proof.
  assert (Z : forall buf off (c : bytes), buf = buf ++ bsub off 0 c).
  { intros. unfold bsub, btake. simpl. rewrite app_nil_r. auto. }
  induction os as [|a os IH]; intros c off len buf; cbn [posix_read];
    destruct (N.eqb_spec len 0) as [E|E]; try (subst len; split; auto; fail).
  - split; [lia|]. exists 0. split; auto; lia.
  - destruct a as [ev|m].
    + destruct (N.eqb_spec ev EINTR) as [Ee|Ee].
      * specialize (IH c off len buf). destruct (posix_read os c off len buf) as [[| | |ev'] b]; auto.
        destruct IH as (A & B & C). split; [right; exact A|]. auto.
      * split; [left; reflexivity|]. split; auto. exists 0. split; auto; lia.
    + set (n := pread_count c off (N.min len SSIZE_MAX) m).
      assert (Hn : n <= len /\ (n = 0 -> blen c <= off) /\ (0 < n -> off + n <= blen c)).
      { unfold n, pread_count, SSIZE_MAX. lia. }
      clearbody n. destruct Hn as (H1 & H2 & H3).
      destruct (N.eqb_spec n 0) as [En|En].
      * specialize (H2 En). split; [lia|]. split; [lia|]. replace (blen c - off) with 0 by lia. apply Z.
      * specialize (IH c (off + n) (len - n) (buf ++ bsub off n c)).
        assert (J : forall k, buf ++ bsub off (n + k) c = (buf ++ bsub off n c) ++ bsub (off + n) k c).
        { intros. rewrite bsub_split, app_assoc. auto. }
        destruct (posix_read os c (off + n) (len - n) _) as [[| | |ev'] b].
        -- destruct IH as (A & k & B & C). split; [lia|]. exists (n + k). split; [lia|]. rewrite J. auto.
        -- destruct IH as (A & B). split; [lia|]. replace len with (n + (len - n)) by lia. rewrite J. auto.
        -- destruct IH as (A & B & C). split; [lia|]. split; [lia|].
           replace (blen c - off) with (n + (blen c - (off + n))) by lia. rewrite J. auto.
        -- destruct IH as (A & B & k & C & D). split; [right; auto|]. split; auto.
           exists (n + k). split; [lia|]. rewrite J. auto.
Qed.

(** The calls answered other than by EINTR. *)
Definition answered (os : list sys) : list sys :=
  filter (fun a => match a with SysErr ev => negb (ev =? EINTR) | SysN _ => true end) os.

Lemma posix_read_terminates os : forall c off len buf,
  len < blen (answered os) -> fst (posix_read os c off len buf) <> Waiting.
Proof.
  induction os as [|a os IH]; intros c off len buf Hl.
  - change (blen (answered [])) with 0 in Hl. lia.
  - cbn [posix_read]. destruct (N.eqb_spec len 0); [discriminate|].
    destruct a as [ev|m]; cbn [answered filter] in Hl; fold (answered os) in Hl.
    + destruct (ev =? EINTR); cbn [negb] in Hl; [apply IH; auto|discriminate].
    + destruct (N.eqb_spec (pread_count c off (N.min len SSIZE_MAX) m) 0); [discriminate|].
      apply IH. rewrite blen_cons in Hl. lia.
Qed.

Lemma bwrite_split o a b f : 0 < blen a ->
  bwrite o (a ++ b) f = bwrite (o + blen a) b (bwrite o a f).
Proof.
  intros Ha. unfold bwrite at 1. unfold bwrite at 2. cbv zeta.
  set (F := f ++ zeros (o - blen f)).
  assert (HF : o <= blen F) by (unfold F; rewrite blen_app, blen_zeros; lia).
  set (g := btake o F ++ a ++ bdrop (o + blen a) F).
  assert (Hg : blen g = o + blen a + (blen F - (o + blen a))).
  { unfold g. rewrite !blen_app, blen_btake, blen_bdrop. lia. }
  unfold bwrite. replace (o + blen a - blen g) with 0 by lia.
  change (zeros 0) with (@nil N). rewrite !app_nil_r.
  assert (Hp : blen (btake o F ++ a) = o + blen a) by (rewrite blen_app, blen_btake; lia).
  assert (E : g = (btake o F ++ a) ++ bdrop (o + blen a) F) by (unfold g; rewrite app_assoc; auto).
  rewrite E. rewrite btake_app_eq by auto.
  rewrite <- !app_assoc. f_equal. f_equal. f_equal.
  rewrite app_assoc. rewrite <- (bdrop_bdrop (blen b) (o + blen a)).
  rewrite bdrop_app_eq by auto. rewrite bdrop_bdrop. f_equal. rewrite blen_app. lia.
Qed.

Lemma pwritten_nil ap o f : pwritten ap o [] f = f.
Proof. reflexivity. Qed.

Lemma pwritten_split ap o a b f : (ap = true -> o = blen f) ->
  pwritten ap (o + blen a) b (pwritten ap o a f) = pwritten ap o (a ++ b) f.
Proof.
  intros Ha. unfold pwritten.
  destruct (N.eqb_spec (blen a) 0) as [Ea|Ea].
  { destruct a; [|rewrite blen_cons in Ea; lia]. cbn [app]. change (blen (@nil N)) with 0.
    rewrite N.add_0_r. auto. }
  destruct (N.eqb_spec (blen (a ++ b)) 0) as [Eb|Eb]; [rewrite blen_app in Eb; lia|].
  replace (if ap then blen f else o) with o by (destruct ap; auto).
  destruct (N.eqb_spec (blen b) 0) as [Ec|Ec].
  { destruct b; [|rewrite blen_cons in Ec; lia]. rewrite app_nil_r. auto. }
  rewrite bwrite_split by lia. f_equal. destruct ap; auto.
  rewrite blen_bwrite_gen. specialize (Ha eq_refl). lia.
Qed.

Lemma posix_write_ok ap os : forall c off d, (ap = true -> off = blen c) ->
  match posix_write ap os c off d with
  | (Done, c') => c' = pwritten ap off d c
  | (Short, _) => False
  | (Failed ev, c') => In (SysErr ev) os /\ ev <> EINTR /\
      exists n, n < blen d /\ c' = pwritten ap off (btake n d) c
  | (Waiting, c') => exists n, n < blen d /\ c' = pwritten ap off (btake n d) c
  end.
Proof.
  induction os as [|a os IH]; intros c off d Ha; cbn [posix_write];
    destruct (N.eqb_spec (blen d) 0) as [E|E];
    try (destruct d; [|rewrite blen_cons in E; lia]; reflexivity).
  - exists 0. split; [lia|]. reflexivity.
  - destruct a as [ev|m].
    + destruct (N.eqb_spec ev EINTR) as [Ee|Ee].
      * specialize (IH c off d Ha). destruct (posix_write ap os c off d) as [[| | |ev'] b]; auto.
        destruct IH as (A & B & C). split; [right; exact A|]. auto.
      * split; [left; reflexivity|]. split; auto. exists 0. split; [lia|]. reflexivity.
    + set (n := N.min m (N.min (blen d) SSIZE_MAX)).
      assert (Hn : n <= blen d) by (unfold n; lia). clearbody n.
      set (c1 := pwritten ap off (btake n d) c).
      assert (Ln : blen (btake n d) = n) by (rewrite blen_btake; lia).
      assert (Ha' : ap = true -> off + n = blen c1).
      { intros Q. specialize (Ha Q). unfold c1, pwritten. rewrite Q, Ln.
        destruct (N.eqb_spec n 0); [lia|]. rewrite blen_bwrite_gen. lia. }
      assert (J : forall k, pwritten ap (off + n) (btake k (bdrop n d)) c1 = pwritten ap off (btake (n + k) d) c).
      { intros k. unfold c1.
        replace (btake (n + k) d) with (btake n d ++ btake k (bdrop n d)).
        - rewrite <- (pwritten_split ap off (btake n d)) by auto. rewrite Ln. reflexivity.
        - pose proof (bsub_split 0 n k d) as X. rewrite !bsub_0 in X. rewrite X. f_equal. }
      assert (Ld : blen (bdrop n d) = blen d - n) by apply blen_bdrop.
      specialize (IH c1 (off + n) (bdrop n d) Ha').
      destruct (posix_write ap os c1 (off + n) (bdrop n d)) as [[| | |ev'] b].
      * destruct IH as (k & A & B).
        exists (n + k). split; [lia|]. rewrite <- J. auto.
      * rewrite IH.
        rewrite <- (btake_all (blen d - n) (bdrop n d)) by lia. rewrite J.
        rewrite btake_all by lia. auto.
      * exact IH.
      * destruct IH as (A & B & k & C & D).
        split; [right; auto|]. split; auto. exists (n + k). split; [lia|]. rewrite <- J. auto.
Qed.

(** The calls that transfer something or fail. *)
Definition productive (os : list sys) : list sys :=
  filter (fun a => match a with SysErr ev => negb (ev =? EINTR) | SysN n => 0 <? n end) os.

Lemma posix_write_terminates ap os : forall c off d,
  blen d < blen (productive os) -> fst (posix_write ap os c off d) <> Waiting.
Proof.
  induction os as [|a os IH]; intros c off d Hl.
  - change (blen (productive [])) with 0 in Hl. lia.
  - cbn [posix_write]. destruct (N.eqb_spec (blen d) 0); [discriminate|].
    destruct a as [ev|m]; cbn [productive filter] in Hl; fold (productive os) in Hl.
    + destruct (ev =? EINTR); cbn [negb] in Hl; [apply IH; auto|discriminate].
    + apply IH. rewrite blen_bdrop. unfold SSIZE_MAX.
      destruct (N.ltb_spec 0 m); [rewrite blen_cons in Hl; lia|lia].
Qed.

Lemma posix_retry_ok os :
  match posix_retry os with
  | Waiting => Forall (fun a => a = SysErr EINTR) os
  | Failed ev => In (SysErr ev) os /\ ev <> EINTR
  | Done => exists n, In (SysN n) os
  | Short => False
  end.
Proof.
  induction os as [|a os IH]; cbn [posix_retry]; auto.
  destruct a as [ev|n].
  - destruct (N.eqb_spec ev EINTR) as [->|E].
    + destruct (posix_retry os); auto.
      * destruct IH as [n Hn]. exists n. right. auto.
      * destruct IH. split; [right|]; auto.
    + split; [left|]; auto.
  - exists n. left. auto.
Qed.

(** A loop that finishes did what the operation of the model does. *)
Lemma posix_read_exec os w f c off len :
  wget w f = Some c ->
  match posix_read os c off len [] with
  | (Done, b) => exec (IoRead f off len) w = (w, ROk 0 b)
  | (Short, _) => exec (IoRead f off len) w = (w, RErr short_read)
  | (Failed ev, _) => In (SysErr ev) os /\ ev <> EINTR
  | (Waiting, _) => True
  end.
Proof.
  intros Hw. pose proof (posix_read_ok os c off len []) as H.
  destruct (posix_read os c off len []) as [[| | |ev] b]; auto.
  - destruct H as [A ->]. cbn [exec app]. rewrite Hw.
    replace ((len =? 0) || (off + len <=? blen c)) with true by lia. reflexivity.
  - destruct H as (A & B & _). cbn [exec]. rewrite Hw.
    replace ((len =? 0) || (off + len <=? blen c)) with false by lia. reflexivity.
  - destruct H as (A & B & _). auto.
Qed.

Lemma posix_write_exec ap os w f c off d :
  wget w f = Some c -> (ap = true -> off = blen c) -> 0 < blen d ->
  match posix_write ap os c off d with
  | (Done, c') => exec (IoWrite f ap off d) w = (wset w f (Some c'), ROk 0 [])
  | (Short, _) => False
  | (Failed ev, c') => In (SysErr ev) os /\ ev <> EINTR /\
      (c' = c \/ exists n, 0 < n < blen d /\
         exec (IoWrite f ap off (btake n d)) w = (wset w f (Some c'), ROk 0 []))
  | (Waiting, c') => c' = c \/ exists n, 0 < n < blen d /\
      exec (IoWrite f ap off (btake n d)) w = (wset w f (Some c'), ROk 0 [])
  end.
Proof.
  intros Hw Ha Hd. pose proof (posix_write_ok ap os c off d Ha) as H.
  assert (X : ap && negb (off =? blen c) = false).
  { destruct ap; auto. rewrite (Ha eq_refl), N.eqb_refl. auto. }
  assert (Y : (if ap then blen c else off) = off) by (destruct ap; auto; symmetry; auto).
  assert (Z : forall n c', n < blen d -> c' = pwritten ap off (btake n d) c ->
    c' = c \/ exists n, 0 < n < blen d /\
      exec (IoWrite f ap off (btake n d)) w = (wset w f (Some c'), ROk 0 [])).
  { intros n c' Hn ->. unfold pwritten. rewrite blen_btake. replace (N.min n (blen d)) with n by lia.
    destruct (N.eqb_spec n 0); [left; auto|right]. exists n. split; [lia|]. cbn [exec]. rewrite Hw, X, Y. reflexivity. }
  destruct (posix_write ap os c off d) as [[| | |ev] b]; auto.
  - destruct H as (n & A & B). eauto.
  - subst b. cbn [exec]. rewrite Hw, X. unfold pwritten. destruct (N.eqb_spec (blen d) 0); [lia|]. rewrite Y. auto.
  - destruct H as (A & B & n & C & D). eauto 6.
Qed.
