(** The loops of win32_file. *)
From Verif Require Import Model.Bytes Model.Err Model.IO Model.Win32 Proofs.BytesFacts Proofs.IOFacts Proofs.PosixFacts.

Lemma ReadFile_inr c off amount a n : ReadFile c off amount a = inr n -> 0 < amount ->
  n <= amount /\ (n = 0 -> blen c <= off) /\ (0 < n -> off + n <= blen c).
Proof.
  unfold ReadFile. destruct a as [ev|m].
  - destruct (N.eqb_spec ev HANDLE_EOF); cbn [andb]; [|discriminate].
    destruct (N.ltb_spec off (blen c)); [|discriminate]. intros H1. injection H1 as <-. lia.
  - intros H. injection H as <-. lia.
Qed.
Lemma ReadFile_inl c off amount a ev : ReadFile c off amount a = inl ev ->
  a = WinErr ev /\ (ev = HANDLE_EOF -> blen c <= off).
Proof.
  unfold ReadFile. destruct a as [ev'|m]; [|discriminate].
  destruct (N.eqb_spec ev' HANDLE_EOF); cbn [andb].
  - destruct (N.ltb_spec off (blen c)); [discriminate|]. intros H1. injection H1 as <-. auto.
  - intros H1. injection H1 as <-. split; auto. contradiction.
Qed.

Lemma win32_read_ok os : forall c off len buf,
  match win32_read os c off len buf with
  | (WDone, b) => (len = 0 \/ off + len <= blen c) /\ b = buf ++ bsub off len c
  | (WShort, b) => 0 < len /\ blen c < off + len /\ b = buf ++ bsub off (blen c - off) c
  | (WNoSpace, _) => False
  | (WFailed ev, b) => In (WinErr ev) os /\ ev <> HANDLE_EOF /\ exists n, n <= len /\ b = buf ++ bsub off n c
  | (WWaiting, b) => blen os < len /\ exists n, n <= len /\ b = buf ++ bsub off n c
  end.
Proof.
  assert (Z : forall buf off (c : bytes), buf = buf ++ bsub off 0 c).
  { intros. unfold bsub, btake. simpl. rewrite app_nil_r. auto. }
  induction os as [|a os IH]; intros c off len buf; cbn [win32_read];
    destruct (N.eqb_spec len 0) as [E|E]; try (subst len; split; auto; fail).
  - split; [change (blen (@nil win)) with 0; lia|]. exists 0. split; auto; lia.
  - set (amount := if DWORD_MAX <? len then DWORD_MAX else len).
    assert (Ham : 0 < amount <= len) by (unfold amount, DWORD_MAX; destruct (N.ltb_spec 4294967295 len); lia).
    clearbody amount.
    destruct (ReadFile c off amount a) as [ev|n] eqn:Er.
    + apply ReadFile_inl in Er as [-> He]. destruct (N.eqb_spec ev HANDLE_EOF) as [Ee|Ee]; cbn [negb].
      * specialize (He Ee). split; [lia|]. split; [lia|]. replace (blen c - off) with 0 by lia. apply Z.
      * split; [left; reflexivity|]. split; auto. exists 0. split; auto; lia.
    + apply ReadFile_inr in Er as (H1 & H2 & H3); [|lia].
      destruct (N.eqb_spec n 0) as [En|En].
      * specialize (H2 En). split; [lia|]. split; [lia|]. replace (blen c - off) with 0 by lia. apply Z.
      * specialize (IH c (off + n) (len - n) (buf ++ bsub off n c)).
        assert (J : forall k, buf ++ bsub off (n + k) c = (buf ++ bsub off n c) ++ bsub (off + n) k c).
        { intros. rewrite bsub_split, app_assoc. auto. }
        destruct (win32_read os c (off + n) (len - n) _) as [[| | | |ev'] b].
        -- destruct IH as (A & k & B & C). split; [rewrite blen_cons; lia|]. exists (n + k). split; [lia|]. rewrite J. auto.
        -- destruct IH as (A & B). split; [lia|]. replace len with (n + (len - n)) by lia. rewrite J. auto.
        -- destruct IH as (A & B & C). split; [lia|]. split; [lia|].
           replace (blen c - off) with (n + (blen c - (off + n))) by lia. rewrite J. auto.
        -- exact IH.
        -- destruct IH as (A & B & k & C & D). split; [right; auto|]. split; auto.
           exists (n + k). split; [lia|]. rewrite J. auto.
Qed.

(** [x] written at [off]. *)
Definition written (c : bytes) (off : N) (x : bytes) : bytes := if blen x =? 0 then c else bwrite off x c.
Lemma written_split c o a b : written (written c o a) (o + blen a) b = written c o (a ++ b).
Proof. apply (pwritten_split false). discriminate. Qed.

Lemma win32_write_ok os : forall c off d,
  match win32_write os c off d with
  | (WDone, c') => c' = written c off d
  | (WShort, _) => False
  | (WNoSpace, c') => In (WinN 0) os /\ exists n, n < blen d /\ c' = written c off (btake n d)
  | (WFailed ev, c') => In (WinErr ev) os /\ exists n, n < blen d /\ c' = written c off (btake n d)
  | (WWaiting, c') => blen os < blen d /\ exists n, n < blen d /\ c' = written c off (btake n d)
  end.
Proof.
  induction os as [|a os IH]; intros c off d; cbn [win32_write];
    destruct (N.eqb_spec (blen d) 0) as [E|E];
    try (destruct d; [|rewrite blen_cons in E; lia]; reflexivity).
  - split; [change (blen (@nil win)) with 0; lia|]. exists 0. split; [lia|]. reflexivity.
  - set (amount := if DWORD_MAX <? blen d then DWORD_MAX else blen d).
    assert (Ham : 0 < amount <= blen d) by (unfold amount, DWORD_MAX; destruct (N.ltb_spec 4294967295 (blen d)); lia).
    clearbody amount. destruct a as [ev|m].
    + split; [left; reflexivity|]. exists 0. split; [lia|]. reflexivity.
    + destruct (N.eqb_spec (N.min m amount) 0) as [En|En].
      * assert (m = 0) as -> by lia. split; [left; reflexivity|]. exists 0. split; [lia|]. reflexivity.
      * set (n := N.min m amount) in *.
        assert (Hn : 0 < n <= blen d) by (unfold n in *; lia). clearbody n.
        assert (Ln : blen (btake n d) = n) by (rewrite blen_btake; lia).
        assert (Ec : bwrite off (btake n d) c = written c off (btake n d)).
        { unfold written. rewrite Ln. destruct (N.eqb_spec n 0); [lia|auto]. }
        assert (J : forall k, written (bwrite off (btake n d) c) (off + n) (btake k (bdrop n d)) = written c off (btake (n + k) d)).
        { intros k. rewrite Ec.
          replace (btake (n + k) d) with (btake n d ++ btake k (bdrop n d)).
          - rewrite <- (written_split c off (btake n d)). rewrite Ln. reflexivity.
          - pose proof (bsub_split 0 n k d) as X. rewrite !bsub_0 in X. rewrite X. f_equal. }
        assert (Ld : blen (bdrop n d) = blen d - n) by apply blen_bdrop.
        specialize (IH (bwrite off (btake n d) c) (off + n) (bdrop n d)).
        destruct (win32_write os (bwrite off (btake n d) c) (off + n) (bdrop n d)) as [[| | | |ev'] b].
        -- destruct IH as (A & k & B & C). split; [rewrite blen_cons; lia|]. exists (n + k). split; [lia|]. rewrite <- J. auto.
        -- rewrite IH. rewrite <- (btake_all (blen d - n) (bdrop n d)) by lia. rewrite J. rewrite btake_all by lia. auto.
        -- exact IH.
        -- destruct IH as (A & k & B & C). split; [right; auto|]. exists (n + k). split; [lia|]. rewrite <- J. auto.
        -- destruct IH as (A & k & B & C). split; [right; auto|]. exists (n + k). split; [lia|]. rewrite <- J. auto.
Qed.

Lemma win32_read_exec os w f c off len : wget w f = Some c ->
  match win32_read os c off len [] with
  | (WDone, b) => exec (IoRead f off len) w = (w, ROk 0 b)
  | (WShort, _) => exec (IoRead f off len) w = (w, RErr short_read)
  | (WNoSpace, _) => False
  | (WFailed ev, _) => In (WinErr ev) os /\ ev <> HANDLE_EOF
  | (WWaiting, _) => blen os < len
  end.
Proof.
  intros Hw. pose proof (win32_read_ok os c off len []) as H.
  destruct (win32_read os c off len []) as [[| | | |ev] b]; try tauto.
  - destruct H as [A ->]. cbn [exec app]. rewrite Hw.
    replace ((len =? 0) || (off + len <=? blen c)) with true by lia. reflexivity.
  - destruct H as (A & B & _). cbn [exec]. rewrite Hw.
    replace ((len =? 0) || (off + len <=? blen c)) with false by lia. reflexivity.
Qed.

Lemma win32_write_exec ap os w f c off d :
  wget w f = Some c -> (ap = true -> off = blen c) -> 0 < blen d ->
  let partly c' := c' = c \/ exists n, 0 < n < blen d /\
         exec (IoWrite f ap off (btake n d)) w = (wset w f (Some c'), ROk 0 []) in
  match win32_write os c off d with
  | (WDone, c') => exec (IoWrite f ap off d) w = (wset w f (Some c'), ROk 0 [])
  | (WShort, _) => False
  | (WNoSpace, c') => In (WinN 0) os /\ partly c'
  | (WFailed ev, c') => In (WinErr ev) os /\ partly c'
  | (WWaiting, c') => blen os < blen d /\ partly c'
  end.
Proof.
  intros Hw Ha Hd partly. pose proof (win32_write_ok os c off d) as H.
  assert (X : ap && negb (off =? blen c) = false).
  { destruct ap; auto. rewrite (Ha eq_refl), N.eqb_refl. auto. }
  assert (Z : forall n c', n < blen d -> c' = written c off (btake n d) -> partly c').
  { intros n c' Hn ->. unfold partly, written. rewrite blen_btake. replace (N.min n (blen d)) with n by lia.
    destruct (N.eqb_spec n 0); [left; auto|right]. exists n. split; [lia|]. cbn [exec]. rewrite Hw, X. reflexivity. }
  destruct (win32_write os c off d) as [[| | | |ev] b]; auto.
  - destruct H as (A & n & B & C). eauto.
  - subst b. cbn [exec]. rewrite Hw, X. unfold written. destruct (N.eqb_spec (blen d) 0); [lia|]. auto.
  - destruct H as (A & n & B & C). eauto.
  - destruct H as (A & n & B & C). eauto.
Qed.

Lemma win32_trunc_exec a1 a2 w f c len : wget w f = Some c -> len <= blen c -> len < 9223372036854775808 ->
  match win32_trunc a1 a2 c len with
  | (WDone, c') => exec (IoTrunc f len) w = (wset w f (Some c'), ROk 0 []) /\ a1 = None /\ a2 = None
  | (WFailed ev, c') => c' = c /\ (a1 = Some ev \/ a2 = Some ev)
  | _ => False
  end.
Proof.
  intros Hw Hl Hs. unfold win32_trunc. replace (9223372036854775808 <=? len) with false by lia.
  destruct a1; auto. destruct a2; auto. cbn [exec]. rewrite Hw. unfold btrunc.
  replace (len - blen c) with 0 by lia. change (zeros 0) with (@nil N). rewrite app_nil_r. auto.
Qed.
