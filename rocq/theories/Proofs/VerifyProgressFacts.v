(** The calls of progress made by verify(). *)
From Verif Require Import Model.Bytes Model.Err Model.Field Model.Format Model.IO
  Model.BulkIO Model.Bucket Model.Recover Model.Verify Model.VerifyProgress SpecProgress
  Proofs.BytesFacts Proofs.FieldFacts Proofs.IOFacts Proofs.BucketFacts.

(** ** Two programs doing the same operations *)
Fixpoint sim {A B} (R : A -> B -> Prop) (p : prog A) (q : prog B) : Prop :=
  match p, q with
  | Ret a, Ret b => R a b
  | Do o k, Do o' k' => o = o' /\ forall r, sim R (k r) (k' r)
  | _, _ => False
  end.
Lemma sim_run {A B} (R : A -> B -> Prop) p : forall q w, sim R p q ->
  fst (run p w) = fst (run q w) /\ R (snd (run p w)) (snd (run q w)).
Proof.
  induction p as [a|o k IH]; intros [b|o' k'] w; cbn [sim run]; try contradiction; [auto|].
  intros [<- H]. destruct (exec o w) as [w' r]. apply IH. apply H.
Qed.
Lemma sim_bind {A B A' B'} (R : A -> B -> Prop) (R' : A' -> B' -> Prop) f g :
  (forall a b, R a b -> sim R' (f a) (g b)) -> forall p q, sim R p q -> sim R' (bind p f) (bind q g).
Proof.
  intros Hf. induction p as [a|o k IH]; intros [b|o' k']; cbn [sim bind]; try contradiction; [auto|].
  intros [<- H]. auto.
Qed.
Lemma sim_refl {A} (p : prog A) : sim eq p p.
Proof. induction p; cbn [sim]; auto. Qed.
Lemma sim_same {A A' B'} (R' : A' -> B' -> Prop) f g (p : prog A) :
  (forall a, sim R' (f a) (g a)) -> sim R' (bind p f) (bind p g).
Proof. intros H. apply (sim_bind eq); [|apply sim_refl]. intros a b <-. apply H. Qed.
Definition sum_rel {S S' R R'} (I : S -> S' -> Prop) (Q : R -> R' -> Prop) (a : S + R) (b : S' + R') : Prop :=
  match a, b with inl s, inl s' => I s s' | inr x, inr x' => Q x x' | _, _ => False end.
Lemma sim_iterp {S S' R R'} (I : S -> S' -> Prop) (Q : R -> R' -> Prop) step step' :
  (forall s s', I s s' -> sim (sum_rel I Q) (step s) (step' s')) ->
  forall n s s', I s s' -> sim (sum_rel I Q) (iterp n step s) (iterp n step' s').
Proof.
  intros H. induction n as [n IH|n IH|]; intros s s' Hs; cbn [iterp]; auto.
  - eapply sim_bind; [|apply H; exact Hs]. intros [s1|t] [s1'|t'] H1; try contradiction H1; [|exact H1].
    eapply sim_bind; [|apply IH; exact H1]. intros [s2|t] [s2'|t'] H2; try contradiction H2; [|exact H2].
    apply IH. exact H2.
  - eapply sim_bind; [|apply IH; exact Hs]. intros [s2|t] [s2'|t'] H2; try contradiction H2; [|exact H2].
    apply IH. exact H2.
Qed.
Lemma sim_loop {S S' R R'} (I : S -> S' -> Prop) (Q : res R -> res R' -> Prop) step step' s s' :
  (forall s s', I s s' -> sim (sum_rel I Q) (step s) (step' s')) -> Q (Er EDiverge) (Er EDiverge) ->
  I s s' -> sim Q (loop step s) (loop step' s').
Proof.
  intros H Hd Hs. unfold loop. eapply sim_bind; [|apply (sim_iterp I Q); [exact H|exact Hs]].
  intros [a|x] [b|y] Hx; try contradiction Hx; exact Hd || exact Hx.
Qed.

(** ** What a program returns, whatever is in the files and whatever fails *)
Definition sized (o : io) (r : rsp) : Prop :=
  match r, o with ROk _ d, IoRead _ _ len => blen d = len | _, _ => True end.
Fixpoint holds {A} (R : A -> Prop) (p : prog A) : Prop :=
  match p with
  | Ret a => R a
  | Do o k => forall r, sized o r -> holds R (k r)
  end.
Lemma exec_sized o w : sized o (snd (exec o w)).
Proof.
  destruct o as [f|f|f|f|f off len|f ap off d|f|f n]; cbn [exec sized];
    destruct (wget w f) as [c|]; cbn [snd sized]; auto.
  - destruct (_ || _) eqn:E; cbn [snd sized]; [|exact I]. apply orb_prop in E as [E|E].
    + apply N.eqb_eq in E. subst len. unfold bsub. rewrite btake_0. reflexivity.
    + apply N.leb_le in E. apply blen_bsub. exact E.
  - destruct (_ && _); exact I.
Qed.
Lemma holds_run {A} (R : A -> Prop) p : forall w, holds R p -> R (snd (run p w)).
Proof.
  induction p as [a|o k IH]; intros w H; cbn [run]; [exact H|].
  pose proof (exec_sized o w) as E. destruct (exec o w) as [w' r]. apply IH. apply H. exact E.
Qed.
Lemma holds_bind {A B} (R : A -> Prop) (R' : B -> Prop) f p :
  holds R p -> (forall a, R a -> holds R' (f a)) -> holds R' (bind p f).
Proof. induction p as [a|o k IH]; cbn [holds bind]; auto. Qed.
Lemma holds_mono {A} (R R' : A -> Prop) p : (forall a, R a -> R' a) -> holds R p -> holds R' p.
Proof. intros H. induction p; cbn [holds]; auto. Qed.
Definition anything {A} (a : A) : Prop := True.
Lemma holds_any {A} (p : prog A) : holds anything p.
Proof. induction p; cbn [holds]; [exact I|auto]. Qed.
Lemma holds_iterp {S R} (I : S -> Prop) (Q : R -> Prop) step :
  (forall s, I s -> holds (fun x => match x with inl s => I s | inr r => Q r end) (step s)) ->
  forall n s, I s -> holds (fun x => match x with inl s => I s | inr r => Q r end) (iterp n step s).
Proof.
  intros H. induction n as [n IH|n IH|]; intros s Hs; cbn [iterp]; auto.
  - eapply holds_bind; [apply H; exact Hs|]. intros [s1|t] H1; [|exact H1].
    eapply holds_bind; [apply IH; exact H1|]. intros [s2|t] H2; [apply IH; exact H2|exact H2].
  - eapply holds_bind; [apply IH; exact Hs|]. intros [s2|t] H2; [apply IH; exact H2|exact H2].
Qed.
Lemma holds_loop {S R} (I : S -> Prop) (Q : res R -> Prop) step s :
  (forall s, I s -> holds (fun x => match x with inl s => I s | inr r => Q r end) (step s)) ->
  Q (Er EDiverge) -> I s -> holds Q (loop step s).
Proof.
  intros H Hd Hs. unfold loop. eapply holds_bind; [apply (holds_iterp I Q); [exact H|exact Hs]|].
  intros [a|x] Hx; [exact Hd|exact Hx].
Qed.
Opaque loop.

(** ** Calls of progress *)
Lemma rising_snoc T t x : forall f, rising f T t -> at_most x t -> f <= x -> rising f T (t ++ [(x, T)]).
Proof.
  induction t as [|[a b] t IH]; intros f H Hm Hf; cbn [app rising].
  - auto.
  - destruct H as (-> & Ha & H). inversion Hm; subst. cbn [fst] in *. auto.
Qed.
Lemma at_most_le x y t : x <= y -> at_most x t -> at_most y t.
Proof. intros H. apply Forall_impl. intros c Hc. lia. Qed.
Lemma at_most_snoc x t T : at_most x t -> at_most x (t ++ [(x, T)]).
Proof. intros H. apply Forall_app. split; [exact H|]. constructor; [cbn [fst]; lia|constructor]. Qed.

(** The calls so far, with total [T] and amounts up to [x]. *)
Definition calls (T x : N) (t : vtrace) : Prop := rising 0 T t /\ at_most x t.
Lemma calls_le T x y t : calls T x t -> x <= y -> calls T y t.
Proof. intros [H1 H2] H. split; [exact H1|]. exact (at_most_le x y t H H2). Qed.
Lemma calls_call x nw t : calls (nw mod 2 ^ 64) x t -> x < 2 ^ 64 -> calls (nw mod 2 ^ 64) x (call x nw t).
Proof.
  intros [H1 H2] H. unfold call. rewrite (N.mod_small x) by exact H. split.
  - apply rising_snoc; [exact H1|exact H2|lia].
  - apply at_most_snoc. exact H2.
Qed.
Lemma calls_0 nw : calls (nw mod 2 ^ 64) 0 (call 0 nw []).
Proof. apply calls_call; [|reflexivity]. split; [exact I|constructor]. Qed.

(** ** The reader *)
Definition rdr (L : N) (r : breader) : Prop := blen (br_avail r) <= br_off r <= L /\ br_last r = L.
Lemma prepare_holds L r n : rdr L r ->
  holds (fun x => match x with Ok (_, r') => rdr L r' /\ br_offset r' = br_offset r + n | Er _ => True end) (br_prepare r n).
Proof.
  intros [H1 H2]. subst L. unfold br_prepare.
  destruct (N.ltb_spec (blen (br_avail r)) n) as [Hn|Hn].
  - destruct (N.ltb_spec (br_last r) (br_off r + n - blen (br_avail r))) as [Hl|Hl]; [exact I|].
    cbn [ebind bind p_read do_data holds]. intros [er|m d] Hd; cbn [sized] in Hd; cbn [holds bind]; [exact I|].
    cbn [bind pret holds br_avail br_off br_file br_last br_cap]. unfold rdr, br_offset. cbn [br_avail br_off br_last].
    rewrite blen_bdrop, blen_app, Hd. destruct (N.ltb_spec (br_cap r) n); repeat split; try lia.
  - cbn [ebind bind pret holds br_avail br_off br_file br_last br_cap]. unfold rdr, br_offset. cbn [br_avail br_off br_last].
    rewrite blen_bdrop. repeat split; try lia; auto.
Qed.
Lemma read_bulk_holds L b r : rdr L r ->
  holds (fun x => match x with (_, Ok r') => rdr L r' /\ br_offset r <= br_offset r' | _ => True end) (bk_read_bulk b r).
Proof.
  intros H. unfold bk_read_bulk. eapply holds_bind; [apply (prepare_holds L); exact H|].
  intros [[is r1]|er] H1; [|exact I]. destruct H1 as [H1 O1]. cbv zeta.
  eapply holds_bind; [apply (prepare_holds L); exact H1|].
  intros [[is2 r2]|er] H2; [|exact I]. destruct H2 as [H2 O2].
  destruct (_ <? _); cbn [holds]; [exact I|]. split; [exact H2|lia].
Qed.
Lemma bk_read_holds p f off :
  holds (fun x => match x with Ok b => bk_size b <= bucket_capacity (blen p) | Er _ => True end) (bk_read p f off).
Proof.
  unfold bk_read. cbv zeta. cbn [ebind bind p_read do_data holds]. intros [er|m d] _; cbn [bind holds]; [exact I|].
  destruct (N.ltb_spec (bucket_capacity (blen p)) (bk_size (bk_of_blob (bwrite 0 d p)))) as [H|H]; cbn [pfail pret holds];
    [exact I|exact H].
Qed.

(** ** verify() with the calls left out *)
Definition plain_res {A} (a : res A) (b : res (vtrace * res A)) : Prop :=
  match b with Ok (_, r) => a = r | Er er => a = Er er end.

Ltac sims := match goal with
  | |- sim _ (bind ?p _) (bind ?p _) => apply sim_same; intros
  | |- sim _ (if ?b then _ else _) (if ?b then _ else _) => destruct b
  | |- sim _ (match ?a with _ => _ end) (match ?a with _ => _ end) => destruct a
  | |- sim _ (Ret _) (Ret _) => cbn [sim sum_rel plain_res fst snd]; auto
  end.

Section Erase.
Variables (e : env) (kh : key_header).

Lemma record_sim nw v r work t :
  sim (sum_rel (fun (s : vinfo * breader) (s' : vinfo * breader * N * vtrace) => fst (fst s') = s)
        (fun (a : res vinfo) (b : res (vtrace * res (vinfo * N))) =>
           match b with Ok (_, Ok (v, _)) => a = Ok v | Ok (_, Er er) => a = Er er | Er er => a = Er er end))
    (vn_record e kh (v, r)) (vnp_record e kh nw (v, r, work, t)).
Proof using. unfold vn_record, vnp_record. cbv zeta. repeat sims. Qed.

Lemma bucket_sim nw n v work t :
  sim (sum_rel (fun (s : N * vinfo) (s' : N * vinfo * N * vtrace) => fst (fst s') = s) plain_res)
    (vn_bucket_step e kh (n, v)) (vnp_bucket_step e kh nw (n, v, work, t)).
Proof using. unfold vn_bucket_step, vnp_bucket_step. cbv zeta. repeat sims. Qed.

Lemma normal_sim d k : sim plain_res (verify_normal e kh d) (vnp e kh d k).
Proof using.
  unfold verify_normal, vnp. cbv zeta. unfold ebind.
  eapply (sim_bind (fun (a : res vinfo) (b : res (vtrace * res (vinfo * N))) =>
           match b with Ok (_, Ok (v, _)) => a = Ok v | Ok (_, Er er) => a = Er er | Er er => a = Er er end)).
  - intros a [[t [[v work]|er]]|er] ->; cbn [sim plain_res pret]; auto.
    apply sim_loop with (I := fun (s : N * vinfo) (s' : N * vinfo * N * vtrace) => fst (fst s') = s); auto.
    + intros [n v'] [[[n' v2] w] t'] H. cbn [fst] in H. injection H as -> ->. apply bucket_sim.
    + reflexivity.
  - apply sim_loop with (I := fun (s : vinfo * breader) (s' : vinfo * breader * N * vtrace) => fst (fst s') = s); auto.
    intros [v r] [[[v1 r1] w] t1] H. cbn [fst] in H. injection H as -> ->. apply record_sim.
Qed.

Lemma frecord_sim b0 b1 buf tmp work nw nk v r t :
  sim (sum_rel (fun (s : list N * vinfo * breader) (s' : list N * vinfo * breader * vtrace) => fst s' = s) plain_res)
    (vf_record e kh b0 b1 buf tmp (nk, v, r)) (vfp_record e kh b0 b1 buf tmp work nw (nk, v, r, t)).
Proof using. unfold vf_record, vfp_record. cbv zeta. repeat sims. Qed.

Lemma pass_sim d ch nw b0 tmp v work t :
  sim (sum_rel (fun (s : N * N * vinfo) (s' : N * N * vinfo * N * vtrace) => fst (fst s') = s) plain_res)
    (vf_pass e kh d ch (b0, tmp, v)) (vfp_pass e kh d ch nw (b0, tmp, v, work, t)).
Proof using.
  unfold vf_pass, vfp_pass. cbv zeta. sims; [|repeat sims]. sims. sims; [|repeat sims]. sims.
  sims; [|repeat sims]. match goal with x : (list N * N * vinfo)%type |- _ => destruct x as [[nk tmp'] v'] end.
  eapply (sim_bind plain_res).
  - intros x [[t' [[nk2 v2]|er]]|er] ->; [sims|cbn; auto|cbn; auto].
    + cbn [sim sum_rel fst]. reflexivity.
    + cbn [sim sum_rel plain_res]. reflexivity.
  - apply sim_loop with (I := fun (s : list N * vinfo * breader) (s' : list N * vinfo * breader * vtrace) => fst s' = s);
      auto; [|reflexivity].
    intros [[nk1 v1] r1] [[[nk2 v2] r2] t2] H. cbn [fst] in H. injection H as -> -> ->. apply frecord_sim.
Qed.

Lemma fast_sim d k buf : sim plain_res (verify_fast e kh d buf) (vfp e kh d k buf).
Proof using.
  unfold verify_fast, vfp. cbv zeta. sims; [reflexivity|].
  apply sim_loop with (I := fun (s : N * N * vinfo) (s' : N * N * vinfo * N * vtrace) => fst (fst s') = s);
    auto; [|reflexivity].
  intros [[b0 tmp] v] [[[[b0' tmp'] v'] w] t'] H. cbn [fst] in H. injection H as -> -> ->. apply pass_sim.
Qed.
End Erase.

Lemma sim_assoc {A B C D} (R : D -> C -> Prop) (p : prog A) (f : A -> prog B) (g : B -> prog C) : forall q,
  sim R q (bind p (fun a => bind (f a) g)) -> sim R q (bind (bind p f) g).
Proof.
  induction p as [a|o k IH]; intros q; cbn [bind]; [auto|].
  destruct q as [d|o' k']; cbn [sim]; [auto|]. intros [<- H]. split; [reflexivity|]. intros r. apply IH. apply H.
Qed.

(** verify_progress does what verify does. *)
Lemma verify_sim e buf : sim plain_res (verify e buf) (verify_progress e buf).
Proof.
  unfold verify, verify_progress, verify_open, ebind, plift, pret.
  repeat (apply sim_assoc; apply sim_same; intros [?|?]; [|cbn [bind sim plain_res]; reflexivity]).
  cbn [bind]. sims; [apply normal_sim|apply fast_sim].
Qed.

(** ** The normal algorithm *)
Section Normal.
Variables (e : env) (kh : key_header) (L K : N).
Notation bs := (kh_block_size kh).
Notation B := (kh_buckets kh).
Notation cap := (bucket_capacity bs).
Notation adj := (vn_adjust bs).
Hypothesis (Hbs : bs <= 65535) (HB : (B + 1) * bs <= K) (H92 : 92 <= L) (HL : L < 2 ^ 49) (HK : K < 2 ^ 49).

Lemma cap_small : cap <= 3641.
Proof using Hbs.
  clear - Hbs. unfold bucket_capacity. destruct (_ || _); [lia|].
  apply N.div_le_upper_bound; lia.
Qed.
Lemma adj_4 : 4 * adj <= 7 * bs.
Proof using. clear. unfold vn_adjust. apply N.mul_div_le. lia. Qed.

Definition inv1 (T : N) (s : vinfo * breader * N * vtrace) : Prop :=
  let '(v, r, work, t) := s in
  rdr L r /\ work = bs * vi_value_count v /\ 7 * vi_value_count v <= br_offset r /\ vi_key_count v = 0 /\
  vi_algorithm v = 0 /\ calls T (work + br_offset r) t.
Definition post1 (T : N) (x : res (vtrace * res (vinfo * N))) : Prop :=
  match x with
  | Ok (t, Ok (v, work)) => work = bs * vi_value_count v /\ 7 * vi_value_count v <= L /\ vi_key_count v = 0 /\
      vi_algorithm v = 0 /\ calls T (work + L) t
  | Ok (t, Er _) => rising 0 T t
  | Er _ => True
  end.

Lemma offset_le r : rdr L r -> br_offset r <= L.
Proof using. clear. intros [H _]. unfold br_offset. lia. Qed.

Lemma record_holds nw s : inv1 (nw mod 2 ^ 64) s ->
  holds (fun x => match x with inl s => inv1 (nw mod 2 ^ 64) s | inr r => post1 (nw mod 2 ^ 64) r end) (vnp_record e kh nw s).
Proof using All.
  clear HB HK H92 K. destruct s as [[[v r] work] t]. intros (Hr & Hw & H7 & Hk & Ha & Hc). unfold vnp_record. cbv zeta.
  assert (Hup : rising 0 (nw mod 2 ^ 64) t) by apply Hc.
  pose proof (offset_le _ Hr) as Ho.
  destruct (br_eof r) eqn:Heof.
  { cbn [holds post1]. split; [exact Hw|]. split; [lia|]. split; [exact Hk|]. split; [exact Ha|].
    apply (calls_le _ _ _ _ Hc). lia. }
  eapply holds_bind; [apply (prepare_holds L); exact Hr|].
  intros [[is r1]|er] H1; [|exact Hup]. destruct H1 as [R1 O1]. pose proof (offset_le _ R1) as Ho1.
  destruct (N.ltb_spec 0 (rd_size48 is)) as [Hz|Hz].
  - eapply holds_bind; [apply (prepare_holds L); exact R1|].
    intros [[is2 r2]|er] H2; [|exact Hup]. destruct H2 as [R2 O2]. pose proof (offset_le _ R2) as Ho2.
    eapply holds_bind; [apply holds_any|]. intros [b|er] _; [|exact Hup].
    eapply holds_bind; [apply holds_any|]. intros [b'|er] _; [|exact Hup].
    cbn [holds inv1]. split; [exact R2|]. split; [cbn [vi_value vi_value_count]; lia|].
    split; [cbn [vi_value vi_value_count]; lia|]. split; [exact Hk|]. split; [exact Ha|].
    apply calls_le with (x := work + bs + br_offset r); [|lia].
    apply calls_call; [apply (calls_le _ _ _ _ Hc); lia|].
    assert (bs * vi_value_count v <= 65535 * vi_value_count v) by (apply N.mul_le_mono_r; exact Hbs). lia.
  - eapply holds_bind; [apply (prepare_holds L); exact R1|].
    intros [[is2 r2]|er] H2; [|destruct er; exact Hup]. destruct H2 as [R2 O2].
    destruct (negb _); [exact Hup|].
    eapply holds_bind; [apply (read_bulk_holds L); exact R2|].
    intros [b [r3|er]] H3; [|destruct er; exact Hup]. destruct H3 as [R3 O3].
    cbn [holds inv1]. split; [exact R3|]. split; [cbn [vi_spill_rec vi_value_count]; lia|].
    split; [cbn [vi_spill_rec vi_value_count]; lia|]. split; [exact Hk|]. split; [exact Ha|].
    apply calls_le with (x := work + br_offset r); [|lia].
    apply calls_call; [exact Hc|].
    assert (bs * vi_value_count v <= 65535 * vi_value_count v) by (apply N.mul_le_mono_r; exact Hbs). lia.
Qed.

Lemma chain_holds b v :
  holds (fun x => match x with
    | Ok (_, v') => vi_key_count v + bk_size b <= vi_key_count v' /\ vi_value_count v' = vi_value_count v /\
        vi_algorithm v' = vi_algorithm v
    | Er _ => True end) (loop (vn_chain_step e kh) (b, 0, v)).
Proof using.
  clear. apply holds_loop with (I := fun s => let '(b', _, v') := s in
    vi_key_count v + bk_size b <= vi_key_count v' + bk_size b' /\ vi_value_count v' = vi_value_count v /\
    vi_algorithm v' = vi_algorithm v);
    [|exact I|split; [lia|auto]].
  intros [[b' ns] v'] (H1 & H2 & H3). unfold vn_chain_step. cbv zeta.
  eapply holds_bind; [apply holds_any|]. intros [[]|er] _; [|exact I].
  destruct (_ =? _); [cbn [holds vi_keys vi_key_count vi_value_count vi_algorithm]; auto|].
  eapply holds_bind; [apply holds_any|]. intros [b2|er] _; [|exact I].
  cbn [holds vi_spill vi_keys vi_key_count vi_value_count vi_algorithm]. split; [lia|auto].
Qed.

Definition inv2 (T W0 V : N) (s : N * vinfo * N * vtrace) : Prop :=
  let '(n, v, work, t) := s in
  n <= B /\ work <= W0 + adj * (n + vi_key_count v) /\ work <= W0 + n * (adj * 3642) /\
  vi_value_count v = V /\ vi_algorithm v = 0 /\ calls T work t.
Definition post2 (T W0 V : N) (x : res (vtrace * res vinfo)) : Prop :=
  match x with
  | Ok (t, Ok v) => vi_value_count v = V /\ vi_algorithm v = 0 /\ calls T (W0 + adj * (B + vi_key_count v)) t
  | Ok (t, Er _) => rising 0 T t
  | Er _ => True
  end.

Lemma steps_small n : n <= B -> n * (adj * 3642) <= 6374 * K.
Proof using All.
  intros Hn. pose proof adj_4 as H.
  assert (n * (4 * adj) <= n * (7 * bs)) by (apply N.mul_le_mono_l; exact H).
  assert (n * bs <= B * bs) by (apply N.mul_le_mono_r; exact Hn). lia.
Qed.

Lemma bucket_holds nw W0 V s : W0 <= 9364 * L ->
  inv2 (nw mod 2 ^ 64) W0 V s ->
  holds (fun x => match x with inl s => inv2 (nw mod 2 ^ 64) W0 V s | inr r => post2 (nw mod 2 ^ 64) W0 V r end)
    (vnp_bucket_step e kh nw s).
Proof using All.
  intros HW. destruct s as [[[n v] work] t]. intros (Hn & Hk & Hs & Hv & Ha & Hc). unfold vnp_bucket_step. cbv zeta.
  assert (Hup : rising 0 (nw mod 2 ^ 64) t) by apply Hc.
  destruct (N.ltb_spec n B) as [HnB|HnB].
  - eapply holds_bind; [apply bk_read_holds|]. intros [b|er] Hb; [|exact Hup].
    rewrite blen_fresh in Hb. pose proof cap_small as Hcap.
    eapply holds_bind; [apply chain_holds|]. intros [[ns v']|er] Hv'; [|exact Hup].
    destruct Hv' as (Hk' & Hv' & Ha'). cbn [holds inv2 vi_bucket vi_key_count vi_value_count vi_algorithm].
    assert (X : bk_size b * adj <= 3641 * adj) by (apply N.mul_le_mono_r; lia).
    pose proof (steps_small (n + 1) ltac:(lia)) as Hst.
    split; [lia|]. split.
    { assert (adj * (n + 1 + (vi_key_count v + bk_size b)) <= adj * (n + 1 + vi_key_count v'))
        by (apply N.mul_le_mono_l; lia). lia. }
    split; [lia|]. split; [lia|]. split; [congruence|].
    apply calls_call; [apply (calls_le _ _ _ _ Hc); lia|]. lia.
  - cbn [holds post2]. split; [exact Hv|]. split; [exact Ha|]. apply (calls_le _ _ _ _ Hc).
    replace B with n by lia. exact Hk.
Qed.

Definition normal_post (x : res (vtrace * res vinfo)) : Prop :=
  match x with
  | Ok (t, r) =>
    let T := vn_work kh L K mod 2 ^ 64 in
    rising 0 T t /\
    match r with
    | Ok v => vi_algorithm v = 0 /\ at_most (L + bs * vi_value_count v + adj * (B + vi_key_count v)) t
    | Er _ => True
    end
  | Er _ => True
  end.
Lemma normal_holds : holds normal_post (vnp e kh L K).
Proof using All.
  unfold vnp. cbv zeta. set (nw := vn_work kh L K). unfold ebind.
  eapply holds_bind.
  - apply holds_loop with (I := inv1 (nw mod 2 ^ 64)) (Q := post1 (nw mod 2 ^ 64)); [apply record_holds|exact I|].
    cbn [inv1 vinfo0 vi_value_count vi_key_count vi_algorithm]. unfold rdr, br_make, br_offset. cbn [br_avail br_off br_last].
    change (blen []) with 0. unfold dat_hdr_size. split; [lia|]. split; [lia|]. split; [lia|]. split; [lia|]. split; [lia|].
    apply calls_le with (x := 0); [apply calls_0|lia].
  - intros [[t [[v work]|er]]|er] H; cbn [holds pret normal_post]; [|split; [exact H|exact I]|exact I].
    destruct H as (Hw & H7 & Hk & Ha & Hc).
    eapply holds_mono; [|apply holds_loop with (I := inv2 (nw mod 2 ^ 64) (work + L) (vi_value_count v))
      (Q := post2 (nw mod 2 ^ 64) (work + L) (vi_value_count v))].
    + intros [[t' [v'|er]]|er] H; cbn [post2 normal_post] in *; auto.
      destruct H as (H1 & H2 & H3). cbv zeta. split; [apply H3|]. split; [exact H2|].
      rewrite H1. replace (L + bs * vi_value_count v) with (work + L) by lia. apply H3.
    + intros s. apply bucket_holds.
      assert (bs * vi_value_count v <= 65535 * vi_value_count v) by (apply N.mul_le_mono_r; exact Hbs). lia.
    + exact I.
    + cbn [inv2]. split; [lia|]. split; [lia|]. split; [lia|]. split; [reflexivity|]. split; [exact Ha|exact Hc].
Qed.

Hypothesis (Hcap : kh_capacity kh = cap) (Hlf : kh_load_factor kh <= 65535).
Lemma keys_small : bs * vn_keys kh <= 3641 * K.
Proof using All.
  unfold vn_keys. rewrite Hcap. pose proof cap_small as Hc.
  assert (X : kh_load_factor kh * B * cap / 65536 <= B * cap).
  { apply N.div_le_upper_bound; [lia|]. rewrite <- N.mul_assoc. apply N.mul_le_mono_r. lia. }
  assert (B * cap <= B * 3641) by (apply N.mul_le_mono_l; exact Hc).
  assert (bs * (kh_load_factor kh * B * cap / 65536) <= bs * (B * 3641)) by (apply N.mul_le_mono_l; lia). lia.
Qed.
Lemma work_small : vn_work kh L K < 2 ^ 64.
Proof using All.
  pose proof keys_small. unfold vn_work. apply N.div_lt_upper_bound; lia.
Qed.
Lemma work_enough v k : v <= vn_keys kh -> k <= vn_keys kh ->
  L + bs * v + adj * (B + k) <= vn_work kh L K.
Proof using All.
  intros Hv Hk. unfold vn_work. apply N.div_le_lower_bound; [lia|]. pose proof adj_4 as Ha.
  assert (bs * v <= bs * vn_keys kh) by (apply N.mul_le_mono_l; exact Hv).
  assert (4 * adj * (B + k) <= 7 * bs * (B + k)) by (apply N.mul_le_mono_r; exact Ha).
  assert (bs * (B + k) <= bs * (B + vn_keys kh)) by (apply N.mul_le_mono_l; lia). lia.
Qed.
End Normal.

(** ** The fast algorithm *)
Section Fast.
Variables (e : env) (kh : key_header) (L K buf : N).
Notation bs := (kh_block_size kh).
Notation B := (kh_buckets kh).
Notation ch := (verify_chunk kh buf).
Notation P := (vf_passes kh buf).
Notation nw := (vf_work kh L K buf).
Hypothesis (HB : (B + 1) * bs <= K) (H92 : 92 <= L) (Hch : 0 < ch) (HT : nw < 2 ^ 64).

Definition finv1 (work : N) (s : list N * vinfo * breader * vtrace) : Prop :=
  let '(_, _, r, t) := s in rdr L r /\ calls nw (work + br_offset r) t.
Definition fpost1 (work : N) (x : res (vtrace * res (list N * vinfo))) : Prop :=
  match x with Ok (t, _) => calls nw (work + L) t | Er _ => True end.

Lemma frecord_holds b0 b1 bf tmp work s : work + L <= nw -> finv1 work s ->
  holds (fun x => match x with inl s => finv1 work s | inr r => fpost1 work r end)
    (vfp_record e kh b0 b1 bf tmp work nw s).
Proof using All.
  intros Hw. destruct s as [[[nk v] r] t]. intros [Hr Hc]. unfold vfp_record. cbv zeta.
  pose proof (offset_le L r Hr) as Ho.
  assert (Hst : calls nw (work + L) t) by (apply (calls_le _ _ _ _ Hc); lia).
  destruct (br_eof r); [exact Hst|].
  eapply holds_bind; [apply (prepare_holds L); exact Hr|].
  intros [[is r1]|er] H1; [|destruct er; exact Hst]. destruct H1 as [R1 O1].
  assert (Hcall : calls nw (work + br_offset r) (call (work + br_offset r) nw t)).
  { pose proof (calls_call (work + br_offset r) nw t) as X. rewrite (N.mod_small nw) in X by exact HT.
    apply X; [exact Hc|lia]. }
  destruct (0 <? rd_size48 is).
  - eapply holds_bind; [apply (prepare_holds L); exact R1|].
    intros [[is2 r2]|er] H2; [|destruct er; exact Hst]. destruct H2 as [R2 O2].
    destruct (_ || _); [cbn [holds finv1]; split; [exact R2|apply (calls_le _ _ _ _ Hc); lia]|].
    eapply holds_bind; [apply holds_any|]. intros [b|er] _; [|exact Hst].
    destruct (_ =? _); [exact Hst|]. cbn [holds finv1]. split; [exact R2|]. apply (calls_le _ _ _ _ Hcall). lia.
  - eapply holds_bind; [apply (prepare_holds L); exact R1|].
    intros [[is2 r2]|er] H2; [|destruct er; exact Hst]. destruct H2 as [R2 O2].
    destruct (negb _); [exact Hst|].
    eapply holds_bind; [apply (prepare_holds L); exact R2|].
    intros [[is3 r3]|er] H3; [|destruct er; exact Hst]. destruct H3 as [R3 O3].
    cbn [holds finv1]. split; [exact R3|]. apply (calls_le _ _ _ _ Hcall). lia.
Qed.

Definition finv2 (s : N * N * vinfo * N * vtrace) : Prop :=
  let '(b0, _, _, work, t) := s in
  exists i, b0 = i * ch /\ work = i * L + N.min b0 B * bs /\ calls nw work t /\ at_most nw t.
Definition fpost2 (x : res (vtrace * res vinfo)) : Prop :=
  match x with Ok (t, _) => calls nw nw t | Er _ => True end.

Lemma pass_holds s : finv2 s ->
  holds (fun x => match x with inl s => finv2 s | inr r => fpost2 r end) (vfp_pass e kh L ch nw s).
Proof using All.
  destruct s as [[[[b0 tmp] v] work] t]. intros (i & Hi & Hw & Hc & Hm). unfold vfp_pass. cbv zeta.
  assert (Hst : calls nw nw t) by (split; [apply Hc|exact Hm]).
  destruct (N.ltb_spec b0 B) as [Hb|Hb]; [|exact Hst].
  assert (HiP : i + 1 <= P).
  { unfold vf_passes. cbv zeta. apply N.div_le_lower_bound; lia. }
  eapply holds_bind; [apply holds_any|]. intros [bf|er] _; [|exact Hst].
  set (b1 := N.min (b0 + ch) B).
  assert (Hb1 : b0 <= b1 <= B) by (unfold b1; lia).
  assert (Hw' : work + (b1 - b0) * bs = i * L + b1 * bs).
  { rewrite Hw. replace (N.min b0 B) with b0 by lia. rewrite N.mul_sub_distr_r.
    assert (b0 * bs <= b1 * bs) by (apply N.mul_le_mono_r; lia). lia. }
  assert (Hnw : i * L + b1 * bs + L <= nw).
  { unfold vf_work. assert ((i + 1) * L <= P * L) by (apply N.mul_le_mono_r; exact HiP).
    assert (b1 * bs <= B * bs) by (apply N.mul_le_mono_r; lia). lia. }
  rewrite Hw'. set (t' := call (i * L + b1 * bs) nw t).
  assert (Hc' : calls nw (i * L + b1 * bs) t').
  { pose proof (calls_call (i * L + b1 * bs) nw t) as X. rewrite (N.mod_small nw) in X by exact HT.
    apply X; [|lia]. apply (calls_le _ _ _ _ Hc). rewrite <- Hw'. apply N.le_add_r. }
  assert (Hst' : calls nw nw t') by (apply (calls_le _ _ _ _ Hc'); lia).
  eapply holds_bind; [apply holds_any|]. intros [[[nk tmp'] v']|er] _; [|exact Hst'].
  eapply holds_bind.
  - apply holds_loop with (I := finv1 (i * L + b1 * bs)) (Q := fpost1 (i * L + b1 * bs));
      [intros s; apply frecord_holds; exact Hnw|exact I|].
    cbn [finv1]. unfold rdr, br_make, br_offset. cbn [br_avail br_off br_last].
    change (blen []) with 0. unfold dat_hdr_size. split; [split; [lia|reflexivity]|].
    apply (calls_le _ _ _ _ Hc'). lia.
  - intros [[t2 r]|er] H2; [|exact I]. cbn [fpost1] in H2.
    assert (Hst2 : calls nw nw t2) by (apply (calls_le _ _ _ _ H2); exact Hnw).
    destruct r as [[nk2 v2]|er]; [|exact Hst2].
    destruct (forallb _ _); [|exact Hst2].
    cbn [holds finv2]. exists (i + 1). split; [lia|]. split; [fold b1; lia|]. split; [|apply Hst2].
    exact H2.
Qed.

Lemma fast_holds : holds fpost2 (vfp e kh L K buf).
Proof using All.
  unfold vfp. cbv zeta. destruct (_ <? _); [cbn [pret holds fpost2]; split; [exact I|constructor]|].
  apply holds_loop with (I := finv2); [apply pass_holds|exact I|].
  cbn [finv2]. exists 0. split; [lia|]. split; [rewrite !N.mul_0_l, N.min_0_l; reflexivity|].
  pose proof (calls_0 nw) as X. rewrite (N.mod_small nw) in X by exact HT. split; [exact X|].
  apply at_most_le with (x := 0); [lia|apply X].
Qed.
End Fast.
