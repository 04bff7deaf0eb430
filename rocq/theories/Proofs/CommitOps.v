(** The file operations that a commit may issue, whatever the answers. *)
From Verif Require Import Model.Bytes Model.Err Model.Field Model.Format Model.IO
  Model.BulkIO Model.Bucket Model.Pool Model.Recover Model.Store Model.Crash
  Proofs.BytesFacts Proofs.IOFacts Proofs.SafeFacts.

(** Reads, and appends to [f]. *)
Definition app_to (f : fname) (o : io) : Prop :=
  io_pure o \/ exists off d, o = IoWrite f true off d.

Definition writer_to (f : fname) (w : bwriter) : Prop := bw_file w = f /\ bw_append w = true.

Ltac ops := first
  [ apply ao_pret; exact I | apply ao_pfail
  | apply ao_num; left; exact I | apply ao_data; left; exact I | apply ao_unit; left; exact I ].

Section Ops.
Variable f : fname.
Notation P := (app_to f).
Notation W := (writer_to f).

Lemma ops_bw_flush w : W w -> allops P (okres W) (bw_flush w).
Proof.
  intros [Hf Ha]. unfold bw_flush. destruct (blen (bw_buf w) =? 0); [apply ao_pret; split; auto|].
  apply (ao_ebind P anyres).
  - apply ao_unit. right. rewrite Hf, Ha. eauto.
  - intros _ _. apply ao_pret. split; auto.
Qed.

Lemma ops_bw_put w d : W w -> allops P (okres W) (bw_put w d).
Proof.
  intros Hw. unfold bw_put. apply (ao_ebind P W).
  - destruct (bw_cap w <? blen (bw_buf w) + blen d); [apply ops_bw_flush; auto|apply ao_pret; auto].
  - intros w1 [Hf Ha]. apply ao_pret. split; auto.
Qed.

Lemma ops_bk_read p g off : allops P (okres anyres) (bk_read p g off).
Proof.
  unfold bk_read. apply (ao_ebind P anyres); [ops|]. intros d _.
  destruct (bucket_capacity (blen p) <? bk_size (bk_of_blob (bwrite 0 d p))); ops.
Qed.

Lemma ops_maybe_spill b w : W w -> allops P (okres (fun x => W (snd x))) (maybe_spill b w).
Proof.
  intros Hw. unfold maybe_spill. destruct (bk_full b); [|apply ao_pret; auto].
  apply (ao_ebind P W); [apply ops_bw_put; auto|]. intros w1 H1.
  destruct (281474976710655 <? bw_offset w + 8); [ops|apply ao_pret; auto].
Qed.

Lemma ops_split_spill n2 B M tmp fuel : forall i b1 b2 w, W w ->
  allops P (okres (fun x => W (snd x))) (split_spill fuel n2 B M tmp i b1 b2 w).
Proof.
  induction fuel as [|k IH]; intros i b1 b2 w Hw; cbn [split_spill]; [apply ao_pret; auto|].
  destruct (bucket_index (en_hash (bk_at tmp i)) B M =? n2);
    (eapply ao_ebind; [apply ops_maybe_spill; auto|]; intros [b w1] H1; cbv beta iota;
     eapply (ao_ebind P anyres); [apply ao_lift; destruct (bk_insert _ _ _ _); exact I|]; intros; apply IH; auto).
Qed.

Lemma ops_split e kh b1 b2 n2 B M w : W w ->
  allops P (okres (fun x => W (snd x))) (Store.split e kh b1 b2 n2 B M w).
Proof.
  intros Hw. unfold Store.split. destruct (bk_size b1 =? 0); [apply ao_pret; auto|].
  apply (ao_ebind P anyres); [apply ao_lift; destruct (split_own _ _ _ _ _ _ _); exact I|].
  intros [x1 x2] _. cbv beta iota zeta. destruct (bk_spill x1 =? 0); [apply ao_pret; auto|].
  apply (ao_loop P (fun st => W (snd st))); [|auto].
  intros [[[spill y1] y2] w1] H1. unfold split_step. cbn [snd] in H1.
  eapply (ao_bind P (okres (fun x => W (snd x)))).
  - apply (ao_ebind P W).
    { destruct (bw_offset w1 - bw_size w1 <? _); [apply ops_bw_flush; auto|apply ao_pret; auto]. }
    intros w2 H2. apply (ao_ebind P anyres); [apply ops_bk_read|]. intros tmp _.
    eapply ao_ebind; [apply ops_split_spill; auto|]. intros [[z1 z2] w3] H3. apply ao_pret; auto.
  - intros [[[[s' z1] z2] w3]|er] H3; [|constructor; exact I].
    destruct (s' =? 0); constructor; auto.
Qed.

Lemma ops_load e kh n c0 c1 : allops P (okres anyres) (load e kh n c0 c1).
Proof.
  unfold load. destruct (cache_find c1 n); [ops|]. destruct (cache_find c0 n); [ops|].
  apply (ao_ebind P anyres); [apply ops_bk_read|]. intros; ops.
Qed.

Lemma ops_commit_records l : forall w, W w ->
  allops P (okres (fun x => W (snd x))) (commit_records l w).
Proof.
  induction l as [|x l IH]; intros w Hw; cbn [commit_records]; [apply ao_pret; auto|].
  eapply ao_ebind; [apply ops_bw_put; auto|]. intros w1 H1.
  eapply ao_ebind; [apply IH; auto|]. intros [r w2] H2. apply ao_pret; auto.
Qed.

Lemma ops_commit_insert e kh th xo st : W (cs_w st) ->
  allops P (okres (fun st => W (cs_w st))) (commit_insert e kh th xo st).
Proof.
  intros Hw. destruct xo as [x off]. unfold commit_insert.
  apply (ao_ebind P (fun st => W (cs_w st))).
  - unfold commit_split. cbv zeta. destruct (th <=? cs_frac st + 65536); [|apply ao_pret; auto].
    eapply ao_ebind; [apply ops_load|]. intros [[b1 d0] d1] _. cbv beta iota zeta.
    eapply ao_ebind; [apply ops_split; auto|]. intros [[y1 y2] w1] H1. apply ao_pret; auto.
  - intros st1 H1. cbv zeta.
    eapply ao_ebind; [apply ops_load|]. intros [[b d0] d1] _. cbv beta iota zeta.
    eapply ao_ebind; [apply ops_maybe_spill; auto|]. intros [b' w1] H2. cbv beta iota zeta.
    eapply (ao_ebind P anyres); [apply ao_lift; destruct (bk_insert _ _ _ _); exact I|]. intros; apply ao_pret; auto.
Qed.

Lemma ops_commit_inserts e kh th l : forall st, W (cs_w st) ->
  allops P (okres (fun st => W (cs_w st))) (commit_inserts e kh th l st).
Proof.
  induction l as [|x l IH]; intros st Hw; cbn [commit_inserts]; [apply ao_pret; auto|].
  eapply ao_ebind; [apply ops_commit_insert; auto|]. auto.
Qed.

Lemma ops_commit_log_records c : forall w, W w -> allops P (okres W) (commit_log_records c w).
Proof.
  induction c as [|x c IH]; intros w Hw; cbn [commit_log_records]; [apply ao_pret; auto|].
  eapply ao_ebind; [apply ops_bw_put; auto|]. auto.
Qed.
End Ops.

Lemma ops_commit_data e kh th fr B M l : allops (app_to FDat) anyres (commit_data e kh th fr B M l).
Proof.
  eapply ao_weaken with (R := okres anyres); [|intros o Ho; exact Ho|intros; exact I].
  unfold commit_data. apply (ao_ebind _ anyres); [ops|]. intros size _. cbv zeta.
  eapply ao_ebind; [apply ops_commit_records; split; auto|]. intros [l' w] Hw. cbv beta iota.
  eapply ao_ebind; [apply ops_commit_inserts; auto|]. intros st Hs.
  eapply ao_ebind; [apply ops_bw_flush; auto|]. intros w' _. ops.
Qed.

(** Appends to the log, without the final sync. *)
Definition commit_log_app (e : env) (c0 : cache) : prog (res unit) :=
  size <- p_size FLog ;;
  w <- commit_log_records (e_iter e c0) (bw_make FLog true size logWriteSize) ;;
  bw_flush w ;;; pret tt.

Lemma ops_commit_log_app e c0 : allops (app_to FLog) anyres (commit_log_app e c0).
Proof.
  eapply ao_weaken with (R := okres anyres); [|intros o Ho; exact Ho|intros; exact I].
  unfold commit_log_app. apply (ao_ebind _ anyres); [ops|]. intros size _.
  eapply ao_ebind; [apply ops_commit_log_records; split; auto|]. intros w Hw.
  eapply ao_ebind; [apply ops_bw_flush; auto|]. intros; ops.
Qed.

Lemma bind_assoc {A B C} (p : prog A) (f : A -> prog B) (g : B -> prog C) r w :
  run (bind (bind p f) g) w = r <-> run (bind p (fun a => bind (f a) g)) w = r.
Proof.
  rewrite !run_bind. destruct (run p w) as [w' a]. rewrite run_bind. reflexivity.
Qed.

(** Block writes to the key file. *)
Definition key_block (bs : N) (c : cache) (o : io) : Prop :=
  exists n p, In (n, p) c /\ o = IoWrite FKey false ((n + 1) * bs) (bk_padded (bk_of_blob p)).

Lemma ops_commit_key bs c c' : incl c c' -> allops (key_block bs c') anyres (commit_key bs c).
Proof.
  intros Hi. eapply ao_weaken with (R := okres anyres); [|intros o Ho; exact Ho|intros; exact I].
  revert Hi. induction c as [|[n p] c IH]; intros Hi; cbn [commit_key]; [ops|].
  apply (ao_ebind _ anyres).
  - apply ao_unit. exists n, p. split; auto. apply Hi. simpl; auto.
  - intros _ _. apply IH. intros x Hx. apply Hi. simpl; auto.
Qed.

(** ** A commit stops at the first failed operation *)
Lemma strict_unit o : strict (do_unit o).
Proof. constructor; [eauto|]. intros [er|n d]; constructor. Qed.
Lemma strict_num o : strict (do_num o).
Proof. constructor; [eauto|]. intros [er|n d]; constructor. Qed.
Lemma strict_data o : strict (do_data o).
Proof. constructor; [eauto|]. intros [er|n d]; constructor. Qed.

(** The same for the body of a loop. *)
Inductive strict_st {St A} : prog (St + res A) -> Prop :=
| sst_ret r : strict_st (Ret r)
| sst_do o k :
    (forall er, k (RErr er) = Ret (inr (Er er))) ->
    (forall r, strict_st (k r)) -> strict_st (Do o k).

Lemma sst_bind {St A B} (p : prog (res A)) (f : res A -> prog (St + res B)) :
  strict p -> (forall r, strict_st (f r)) -> (forall er, f (Er er) = Ret (inr (Er er))) ->
  strict_st (bind p f).
Proof.
  intros Hp Hf He. induction Hp as [r|o k Hk Hr IH]; simpl; auto.
  constructor; auto. intros er. rewrite Hk. simpl. auto.
Qed.
Lemma sst_bind2 {St A} (p : prog (St + res A)) (f : St -> prog (St + res A)) :
  strict_st p -> (forall s, strict_st (f s)) ->
  strict_st (bind p (fun r => match r with inl s => f s | inr x => Ret (inr x) end)).
Proof.
  intros Hp Hf. induction Hp as [[s|x]|o k Hk Hr IH]; simpl; auto; [constructor|].
  constructor; auto. intros er. rewrite Hk. reflexivity.
Qed.
Lemma sst_iterp {St A} (step : St -> prog (St + res A)) n :
  (forall s, strict_st (step s)) -> forall s, strict_st (iterp n step s).
Proof.
  intros Hs. induction n as [q IH|q IH|]; intros s; simpl; auto.
  - assert (forall s0, strict_st (bind (iterp q step s0) (fun r =>
              match r with inl s' => iterp q step s' | inr x => Ret (inr x) end))) as H
      by (intros; apply sst_bind2; auto).
    specialize (Hs s). induction Hs as [[s0|x]|o k Hk Hr IH2]; simpl; auto; [constructor|].
    constructor; auto. intros er. rewrite Hk. reflexivity.
  - apply sst_bind2; auto.
Qed.
Lemma strict_loop {St A} (step : St -> prog (St + res A)) s :
  (forall s, strict_st (step s)) -> strict (loop step s).
Proof.
  intros Hs. unfold loop. pose proof (sst_iterp step fuel Hs s) as H.
  induction H as [[s0|x]|o k Hk Hr IH]; simpl; try constructor; auto.
  intros er. rewrite Hk. reflexivity.
Qed.

Ltac st1 := first
  [ apply strict_ret | apply strict_unit | apply strict_num | apply strict_data
  | apply strict_ebind; [|intros; cbv beta iota zeta] ].

Lemma strict_bw_flush w : strict (bw_flush w).
Proof. unfold bw_flush. destruct (blen (bw_buf w) =? 0); repeat st1. Qed.
Lemma strict_bw_put w d : strict (bw_put w d).
Proof. unfold bw_put. st1; [|repeat st1]. destruct (bw_cap w <? _); [apply strict_bw_flush|st1]. Qed.
Lemma strict_bk_read p g off : strict (bk_read p g off).
Proof. unfold bk_read. st1; [st1|]. destruct (bucket_capacity (blen p) <? _); st1. Qed.
Lemma strict_maybe_spill b w : strict (maybe_spill b w).
Proof.
  unfold maybe_spill. destruct (bk_full b); [|st1]. st1; [apply strict_bw_put|].
  destruct (281474976710655 <? bw_offset w + 8); st1.
Qed.
Lemma strict_split_spill n2 B M tmp fuel : forall i b1 b2 w, strict (split_spill fuel n2 B M tmp i b1 b2 w).
Proof.
  induction fuel as [|k IH]; intros i b1 b2 w; cbn [split_spill]; [st1|].
  destruct (bucket_index (en_hash (bk_at tmp i)) B M =? n2);
    (st1; [apply strict_maybe_spill|]; destruct a as [b w1]; st1; [st1|apply IH]).
Qed.
Lemma strict_split e kh b1 b2 n2 B M w : strict (Store.split e kh b1 b2 n2 B M w).
Proof.
  unfold Store.split. destruct (bk_size b1 =? 0); [st1|]. st1; [st1|]. destruct a as [x1 x2].
  destruct (bk_spill x1 =? 0); [st1|]. apply strict_loop.
  intros [[[spill y1] y2] w1]. unfold split_step. apply sst_bind.
  - st1. { destruct (bw_offset w1 - bw_size w1 <? _); [apply strict_bw_flush|st1]. }
    st1; [apply strict_bk_read|]. st1; [apply strict_split_spill|]. destruct a1 as [[z1 z2] w3]. st1.
  - intros [[[[s' z1] z2] w3]|er]; [|constructor]. destruct (s' =? 0); constructor.
  - eauto.
Qed.
Lemma strict_load e kh n c0 c1 : strict (load e kh n c0 c1).
Proof.
  unfold load. destruct (cache_find c1 n); [st1|]. destruct (cache_find c0 n); [st1|].
  st1; [apply strict_bk_read|st1].
Qed.
Lemma strict_commit_records l : forall w, strict (commit_records l w).
Proof.
  induction l as [|x l IH]; intros w; cbn [commit_records]; [st1|].
  st1; [apply strict_bw_put|]. st1; [apply IH|]. destruct a0. st1.
Qed.
Lemma strict_commit_inserts e kh th l : forall st, strict (commit_inserts e kh th l st).
Proof.
  induction l as [|[x off] l IH]; intros st; cbn [commit_inserts]; [st1|].
  st1; [|apply IH]. unfold commit_insert. st1.
  - unfold commit_split. cbv zeta. destruct (th <=? cs_frac st + 65536); [|st1].
    st1; [apply strict_load|]. destruct a as [[b1 d0] d1]. cbv beta iota zeta.
    st1; [apply strict_split|]. destruct a as [[y1 y2] w1]. st1.
  - st1; [apply strict_load|]. destruct a0 as [[b d0] d1]. cbv beta iota zeta.
    st1; [apply strict_maybe_spill|]. destruct a0 as [b' w1]. cbv beta iota zeta. repeat st1.
Qed.
Lemma strict_commit_log_records c : forall w, strict (commit_log_records c w).
Proof.
  induction c as [|x c IH]; intros w; cbn [commit_log_records]; [st1|]. st1; [apply strict_bw_put|auto].
Qed.
Lemma strict_commit_key bs c : strict (commit_key bs c).
Proof. induction c as [|[n p] c IH]; cbn [commit_key]; [st1|]. st1; [apply strict_unit|auto]. Qed.

Lemma strict_commit e s : strict (commit e s).
Proof.
  unfold commit. cbv zeta. st1; [unfold commit_begin; repeat st1|].
  st1.
  { unfold commit_data. st1; [st1|]. st1; [apply strict_commit_records|]. destruct a1 as [l w].
    st1; [apply strict_commit_inserts|]. st1; [apply strict_bw_flush|st1]. }
  st1. { unfold commit_log. st1; [st1|]. st1; [apply strict_commit_log_records|]. st1; [apply strict_bw_flush|st1]. }
  st1; [apply strict_commit_key|]. unfold commit_end. repeat st1.
Qed.
