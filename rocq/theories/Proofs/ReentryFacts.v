(** The statements of Props/ReentryProps.v. *)
From Verif Require Import Model.Bytes Model.Concurrent Model.Reentry SpecReentry.

(** ** Lists of threads *)
Fixpoint total {A} (f : A -> N) (l : list A) : N := match l with [] => 0 | x :: l' => f x + total f l' end.

Lemma total_upd {A} (f : A -> N) i x : forall l y, nth_error l i = Some y ->
  total f (upd i x l) + f y = total f l + f x.
Proof.
  induction i as [|i IH]; intros [|z l] y H; try discriminate; cbn [nth_error upd total] in *.
  - injection H as ->. lia.
  - specialize (IH l y H). lia.
Qed.
Lemma total_in {A} (f : A -> N) x l : In x l -> f x <= total f l.
Proof. induction l as [|z l IH]; intros H; [destruct H|]. cbn [total]. destruct H as [->|H]; [lia|]. specialize (IH H). lia. Qed.
Lemma total_pos {A} (f : A -> N) l : total f l <> 0 -> exists x, In x l /\ f x <> 0.
Proof.
  induction l as [|z l IH]; cbn [total]; intros H; [lia|].
  destruct (N.eq_dec (f z) 0) as [E|E]; [|exists z; split; [left; reflexivity|exact E]].
  destruct IH as (x & H1 & H2); [lia|]. exists x. split; [right; exact H1|exact H2].
Qed.
Lemma total_zero {A} (f : A -> N) l x : total f l = 0 -> In x l -> f x = 0.
Proof. intros H Hx. pose proof (total_in f x l Hx). lia. Qed.
Lemma total_one {A} (f : A -> N) l x y i j : total f l <= 1 -> nth_error l i = Some x -> nth_error l j = Some y ->
  f x <> 0 -> f y <> 0 -> i = j.
Proof.
  revert l j. induction i as [|i IH]; intros [|z l] [|j] H Hx Hy Fx Fy; try discriminate; cbn [nth_error total] in *.
  - reflexivity.
  - injection Hx as ->. pose proof (total_in f y l (nth_error_In _ _ Hy)). lia.
  - injection Hy as ->. pose proof (total_in f x l (nth_error_In _ _ Hx)). lia.
  - f_equal. apply (IH l j); auto. lia.
Qed.
Lemma Forall_upd {A} (P : A -> Prop) i x : forall l, Forall P l -> P x -> Forall P (upd i x l).
Proof.
  induction i as [|i IH]; intros [|z l] H Hx; cbn [upd]; auto; inversion H; subst; constructor; auto.
Qed.
Lemma nth_upd {A} i (x : A) : forall l j, nth_error (upd i x l) j =
  if (i =? j)%nat then match nth_error l i with Some _ => Some x | None => None end else nth_error l j.
Proof.
  induction i as [|i IH]; intros [|z l] [|j]; cbn [upd nth_error Nat.eqb]; try reflexivity.
  - destruct (i =? j)%nat; [|reflexivity]. destruct (nth_error (@nil A) i); reflexivity.
  - apply IH.
Qed.

(** ** What is left to do fits the locks that are owned *)
Fixpoint fit (u : bool) (sh : N) (ex : bool) (n : nat) (l : list act) : Prop :=
  match l with
  | [] => u = false /\ sh = 0 /\ ex = false /\ n = O
  | AShared :: l' => sh = 0 /\ ex = false /\ fit u 1 ex n l'
  | AUnshared :: l' => sh = 1 /\ fit u 0 ex n l'
  | AExcl :: l' => sh = 0 /\ ex = false /\ fit u sh true n l'
  | AUnexcl :: l' => ex = true /\ fit u sh false n l'
  | ALockU :: l' => u = false /\ sh = 0 /\ ex = false /\ fit true sh ex n l'
  | AUnlockU :: l' => u = true /\ fit false sh ex n l'
  | AGen :: l' => fit u sh ex (S n) l'
  | AUngen :: l' => match n with S m => fit u sh ex m l' | O => False end
  | AStart :: l' => fit u sh ex n l'
  | AFinish :: l' => n = O /\ sh = 0 /\ ex = false /\ u = false /\ fit u sh ex n l'
  end.

Lemma call_size_ind (P : call -> Prop) :
  (forall p, P (Fetch p None)) -> (forall p l, Forall P l -> P (Fetch p (Some l))) ->
  (forall p n, P (Insert p n)) -> P SetBurst -> forall c, P c.
Proof.
  intros H1 H2 H3 H4. fix IH 1. intros [p [l|]|p n|]; [|apply H1|apply H3|apply H4].
  apply H2. induction l as [|c l IHl]; constructor; [apply IH|exact IHl].
Qed.

Lemma fit_call c : calm c -> forall n l, fit false 0 false n l -> fit false 0 false n (acts c ++ l).
Proof.
  induction c as [p|p cs IH|p b|] using call_size_ind; intros Hc n l Hl.
  - destruct p; cbn [acts app fit]; auto 10.
  - assert (Hin : forall n l, fold_right (fun c P => calm c /\ P) True cs -> fit false 0 false n l ->
              fit false 0 false n (flat_map acts cs ++ l)).
    { clear Hc Hl n l. induction IH as [|c cs Hc' Hcs IH2]; intros n l Ha Hl; [exact Hl|].
      cbn [fold_right flat_map] in *. rewrite <- app_assoc. apply Hc'; [apply Ha|]. apply IH2; [apply Ha|exact Hl]. }
    destruct cs as [|c cs].
    + destruct p; cbn [acts flat_map app fit]; auto 10.
    + destruct p; cbn [calm] in Hc; try contradiction.
      cbn [acts]. rewrite <- !app_assoc. cbn [app fit]. split; [reflexivity|]. split; [reflexivity|]. split; [reflexivity|].
      apply Hin; [exact Hc|]. cbn [app fit]. exact Hl.
  - destruct p, b; cbn [acts app fit]; auto 20.
  - cbn [acts app fit]. auto.
Qed.

Lemma fit_job j : calm_job j -> forall l, fit false 0 false 0 l -> fit false 0 false 0 (jacts j ++ l).
Proof.
  intros Hj l Hl. destruct j as [c|[]]; [apply fit_call; auto| |]; cbn [jacts app fit]; auto 20.
Qed.
Lemma fit_prog p : Forall calm_job p -> fit false 0 false 0 (flat_map jacts p).
Proof.
  induction p as [|j p IH]; intros H; [cbn; auto|]. inversion H; subst. cbn [flat_map]. apply fit_job; auto.
Qed.

(** ** The invariant *)
Definition b2n (b : bool) : N := if b then 1 else 0.
Fixpoint count (P : N -> bool) (l : list N) : N := match l with [] => 0 | x :: l' => b2n (P x) + count P l' end.
Definition tfit (t : thr) : Prop := fit (t_u t) (t_sh t) (t_ex t) (length (t_gens t)) (t_todo t).

Record inv (y : sys) : Prop := Inv {
  iv_fit : Forall tfit (y_th y);
  iv_sh : total t_sh (y_th y) = y_sh y;
  iv_ex : total (fun t => b2n (t_ex t)) (y_th y) = b2n (y_ex y);
  iv_u : total (fun t => b2n (t_u t)) (y_th y) = b2n (y_u y);
  iv_wait : y_wait y = true -> y_sh y <> 0 \/ y_ex y = true;
  iv_cur : total (fun t => count (N.eqb (g_gen (y_g y))) (t_gens t)) (y_th y) = g_cur (y_g y);
  iv_prev : total (fun t => count (fun g => negb (g_gen (y_g y) =? g)) (t_gens t)) (y_th y) = g_prev (y_g y);
  iv_le : Forall (fun t => Forall (fun g => g <= g_gen (y_g y)) (t_gens t)) (y_th y) }.

Lemma total_map {A B} (f : B -> N) (g : A -> B) l : total f (map g l) = total (fun x => f (g x)) l.
Proof. induction l; cbn [map total]; congruence. Qed.
Lemma total_const0 {A} (f : A -> N) l : (forall x, In x l -> f x = 0) -> total f l = 0.
Proof. intros H. induction l as [|x l IH]; [reflexivity|]. cbn [total]. rewrite (H x), IH; auto; cbn; auto. intros; apply H; cbn; auto. Qed.

Lemma inv_start progs : Forall (Forall calm_job) progs -> inv (start progs).
Proof.
  intros H. unfold start. constructor; cbn [y_ex y_sh y_wait y_u y_g y_th g_gen g_cur g_prev];
    try (rewrite total_map; apply total_const0; reflexivity).
  - apply Forall_map. eapply Forall_impl; [|exact H]. intros p Hp. apply fit_prog. exact Hp.
  - discriminate.
  - apply Forall_map. apply Forall_forall. intros p _. constructor.
Qed.

Lemma total_ext_in {A} (f g : A -> N) l : (forall x, In x l -> f x = g x) -> total f l = total g l.
Proof. intros H. induction l as [|x l IH]; [reflexivity|]. cbn [total]. rewrite (H x (or_introl eq_refl)), IH; auto. intros; apply H; right; auto. Qed.
Lemma total_add {A} (f g : A -> N) l : total (fun x => f x + g x) l = total f l + total g l.
Proof. induction l as [|x l IH]; cbn [total]; lia. Qed.
Lemma count_le P l : count P l <= blen l.
Proof. induction l as [|x l IH]; [reflexivity|]. cbn [count]. unfold blen in *. cbn [length]. destruct (P x); cbn [b2n]; lia. Qed.

Lemma inv_step y i y' : inv y -> step i y = Some y' -> inv y'.
Proof.
  intros I H. unfold step in H. destruct (nth_error (y_th y) i) as [[[|a l] gs sh ex u]|] eqn:E; try discriminate.
  destruct I as [If Ish Iex Iu Iw Ic Ip Il].
  assert (Hin := nth_error_In _ _ E).
  rewrite Forall_forall in If, Il. pose proof (If _ Hin) as Hf. pose proof (Il _ Hin) as Hle.
  assert (If' := If). assert (Il' := Il). rewrite <- Forall_forall in If', Il'.
  unfold tfit in Hf. cbn [t_u t_sh t_ex t_gens t_todo] in Hf, Hle.
  assert (Ush := fun t => total_upd t_sh i t _ _ E).
  assert (Uex := fun t => total_upd (fun t => b2n (t_ex t)) i t _ _ E).
  assert (Uu := fun t => total_upd (fun t => b2n (t_u t)) i t _ _ E).
  assert (Uc := fun t => total_upd (fun t => count (N.eqb (g_gen (y_g y))) (t_gens t)) i t _ _ E).
  assert (Up := fun t => total_upd (fun t => count (fun g => negb (g_gen (y_g y) =? g)) (t_gens t)) i t _ _ E).
  cbn [t_u t_sh t_ex t_gens t_todo] in Ush, Uex, Uu, Uc, Up.
  assert (Sh := total_in t_sh _ _ Hin). cbn [t_sh] in Sh. rewrite Ish in Sh.
  assert (Le : forall t, t_gens t = gs -> Forall (fun t => Forall (fun g => g <= g_gen (y_g y)) (t_gens t)) (upd i t (y_th y))).
  { intros t Ht. apply Forall_upd; [exact Il'|]. rewrite Ht. exact Hle. }
  destruct a; cbn [fit] in Hf.
  - destruct (y_ex y || y_wait y) eqn:B; [discriminate|]. injection H as <-. destruct Hf as (-> & -> & Hf).
    specialize (Ush (Thr l gs (0 + 1) false u)). specialize (Uex (Thr l gs (0 + 1) false u)).
    specialize (Uu (Thr l gs (0 + 1) false u)). specialize (Uc (Thr l gs (0 + 1) false u)).
    specialize (Up (Thr l gs (0 + 1) false u)). cbn [t_u t_sh t_ex t_gens t_todo] in *.
    constructor; cbn [y_ex y_sh y_wait y_u y_g y_th]; first [lia|apply Forall_upd; [exact If'|exact Hf]|apply Le; reflexivity|exact Iw|discriminate|intros _; right; reflexivity|idtac].
  - injection H as <-. destruct Hf as (-> & Hf).
    specialize (Ush (Thr l gs (1 - 1) ex u)). specialize (Uex (Thr l gs (1 - 1) ex u)).
    specialize (Uu (Thr l gs (1 - 1) ex u)). specialize (Uc (Thr l gs (1 - 1) ex u)).
    specialize (Up (Thr l gs (1 - 1) ex u)). cbn [t_u t_sh t_ex t_gens t_todo] in *.
    constructor; cbn [y_ex y_sh y_wait y_u y_g y_th]; first [lia|apply Forall_upd; [exact If'|exact Hf]|apply Le; reflexivity|exact Iw|discriminate|intros _; right; reflexivity|idtac].
    destruct (N.eqb_spec (y_sh y) 1); [discriminate|]. intros _. left. lia.
  - destruct (y_ex y || (0 <? y_sh y)) eqn:B.
    + destruct (y_wait y); [discriminate|]. injection H as <-. constructor; cbn [y_ex y_sh y_wait y_u y_g y_th]; auto.
      intros _. apply orb_prop in B as [B|B]; [right; exact B|left]. apply N.ltb_lt in B. lia.
    + injection H as <-. destruct Hf as (-> & -> & Hf). apply orb_false_elim in B as [B1 B2].
      specialize (Ush (Thr l gs 0 true u)). specialize (Uex (Thr l gs 0 true u)).
      specialize (Uu (Thr l gs 0 true u)). specialize (Uc (Thr l gs 0 true u)).
      specialize (Up (Thr l gs 0 true u)). rewrite B1 in *. cbn [t_u t_sh t_ex t_gens t_todo b2n] in *.
      constructor; cbn [y_ex y_sh y_wait y_u y_g y_th b2n]; first [lia|apply Forall_upd; [exact If'|exact Hf]|apply Le; reflexivity|exact Iw|discriminate|intros _; right; reflexivity|idtac].
  - injection H as <-. destruct Hf as (-> & Hf).
    assert (B1 : y_ex y = true).
    { pose proof (total_in (fun t => b2n (t_ex t)) _ _ Hin) as X. cbn [t_ex b2n] in X. rewrite Iex in X.
      destruct (y_ex y); [reflexivity|cbn [b2n] in X; lia]. }
    specialize (Ush (Thr l gs sh false u)). specialize (Uex (Thr l gs sh false u)).
    specialize (Uu (Thr l gs sh false u)). specialize (Uc (Thr l gs sh false u)).
    specialize (Up (Thr l gs sh false u)). rewrite B1 in *. cbn [t_u t_sh t_ex t_gens t_todo b2n] in *.
    constructor; cbn [y_ex y_sh y_wait y_u y_g y_th b2n]; first [lia|apply Forall_upd; [exact If'|exact Hf]|apply Le; reflexivity|exact Iw|discriminate|intros _; right; reflexivity|idtac].
  - destruct (y_u y) eqn:B; [discriminate|]. injection H as <-. destruct Hf as (-> & -> & -> & Hf).
    specialize (Ush (Thr l gs 0 false true)). specialize (Uex (Thr l gs 0 false true)).
    specialize (Uu (Thr l gs 0 false true)). specialize (Uc (Thr l gs 0 false true)).
    specialize (Up (Thr l gs 0 false true)). cbn [t_u t_sh t_ex t_gens t_todo b2n] in *.
    constructor; cbn [y_ex y_sh y_wait y_u y_g y_th b2n]; first [lia|apply Forall_upd; [exact If'|exact Hf]|apply Le; reflexivity|exact Iw|discriminate|intros _; right; reflexivity|idtac].
  - injection H as <-. destruct Hf as (-> & Hf).
    assert (B1 : y_u y = true).
    { pose proof (total_in (fun t => b2n (t_u t)) _ _ Hin) as X. cbn [t_u b2n] in X. rewrite Iu in X.
      destruct (y_u y); [reflexivity|cbn [b2n] in X; lia]. }
    specialize (Ush (Thr l gs sh ex false)). specialize (Uex (Thr l gs sh ex false)).
    specialize (Uu (Thr l gs sh ex false)). specialize (Uc (Thr l gs sh ex false)).
    specialize (Up (Thr l gs sh ex false)). rewrite B1 in *. cbn [t_u t_sh t_ex t_gens t_todo b2n] in *.
    constructor; cbn [y_ex y_sh y_wait y_u y_g y_th b2n]; first [lia|apply Forall_upd; [exact If'|exact Hf]|apply Le; reflexivity|exact Iw|discriminate|intros _; right; reflexivity|idtac].
  - injection H as <-. set (G := g_gen (y_g y)) in *.
    specialize (Ush (Thr l (G :: gs) sh ex u)). specialize (Uex (Thr l (G :: gs) sh ex u)).
    specialize (Uu (Thr l (G :: gs) sh ex u)). specialize (Uc (Thr l (G :: gs) sh ex u)).
    specialize (Up (Thr l (G :: gs) sh ex u)). cbn [t_u t_sh t_ex t_gens t_todo count] in *.
    rewrite N.eqb_refl in *. cbn [b2n negb] in *.
    constructor; cbn [y_ex y_sh y_wait y_u y_g y_th g_lock g_gen g_cur g_prev]; fold G; first [lia|apply Forall_upd; [exact If'|exact Hf]|apply Le; reflexivity|exact Iw|discriminate|intros _; right; reflexivity|idtac].
    apply Forall_upd; [exact Il'|]. cbn [t_gens]. constructor; [lia|exact Hle].
  - destruct gs as [|g gs]; [discriminate|]. injection H as <-. cbn [length] in Hf.
    specialize (Ush (Thr l gs sh ex u)). specialize (Uex (Thr l gs sh ex u)).
    specialize (Uu (Thr l gs sh ex u)). specialize (Uc (Thr l gs sh ex u)).
    specialize (Up (Thr l gs sh ex u)). cbn [t_u t_sh t_ex t_gens t_todo count] in *.
    inversion Hle; subst.
    assert (L : Forall (fun t => Forall (fun g => g <= g_gen (y_g y)) (t_gens t)) (upd i (Thr l gs sh ex u) (y_th y)))
      by (apply Forall_upd; [exact Il'|assumption]).
    unfold g_unlock. rewrite (N.eqb_sym g). destruct (N.eqb_spec (g_gen (y_g y)) g) as [Eg|Eg]; cbn [b2n negb] in *.
    + constructor; cbn [y_ex y_sh y_wait y_u y_g y_th g_gen g_cur g_prev]; first [lia|exact L|apply Forall_upd; [exact If'|exact Hf]|apply Le; reflexivity|exact Iw|discriminate|intros _; right; reflexivity|idtac].
    + constructor; cbn [y_ex y_sh y_wait y_u y_g y_th g_gen g_cur g_prev]; first [lia|exact L|apply Forall_upd; [exact If'|exact Hf]|apply Le; reflexivity|exact Iw|discriminate|intros _; right; reflexivity|idtac].
  - injection H as <-.
    assert (Z : forall t, t_gens t = gs -> forall x, In x (upd i t (y_th y)) -> Forall (fun g => g <= g_gen (y_g y)) (t_gens x)).
    { intros t Ht. apply Forall_forall. apply Le. exact Ht. }
    specialize (Z (Thr l gs sh ex u) eq_refl).
    specialize (Ush (Thr l gs sh ex u)). specialize (Uex (Thr l gs sh ex u)).
    specialize (Uu (Thr l gs sh ex u)). specialize (Uc (Thr l gs sh ex u)).
    specialize (Up (Thr l gs sh ex u)). cbn [t_u t_sh t_ex t_gens t_todo count] in *.
    constructor; cbn [y_ex y_sh y_wait y_u y_g y_th g_start g_gen g_cur g_prev]; try lia.
    + apply Forall_upd; [exact If'|exact Hf].
    + apply total_const0. intros x Hx. specialize (Z x Hx). clear - Z. induction Z as [|g gs Hg Z IH]; [reflexivity|].
      cbn [count]. destruct (N.eqb_spec (g_gen (y_g y) + 1) g); [lia|]. cbn [b2n]. lia.
    + rewrite (total_ext_in _ (fun t => count (fun g => negb (g_gen (y_g y) =? g)) (t_gens t) + count (N.eqb (g_gen (y_g y))) (t_gens t))).
      * rewrite total_add. lia.
      * intros x Hx. specialize (Z x Hx). clear - Z. induction Z as [|g gs Hg Z IH]; [reflexivity|].
        cbn [count]. rewrite IH. destruct (N.eqb_spec (g_gen (y_g y) + 1) g); [lia|].
        destruct (N.eqb_spec (g_gen (y_g y)) g); cbn [b2n negb]; lia.
    + apply Forall_forall. intros x Hx. specialize (Z x Hx). eapply Forall_impl; [|exact Z]. cbv beta. intros. lia.
  - destruct (g_finished (y_g y)); [|discriminate]. injection H as <-. destruct Hf as (_ & -> & -> & -> & Hf).
    specialize (Ush (Thr l gs 0 false false)). specialize (Uex (Thr l gs 0 false false)).
    specialize (Uu (Thr l gs 0 false false)). specialize (Uc (Thr l gs 0 false false)).
    specialize (Up (Thr l gs 0 false false)). cbn [t_u t_sh t_ex t_gens t_todo] in *.
    constructor; cbn [y_ex y_sh y_wait y_u y_g y_th]; first [lia|apply Forall_upd; [exact If'|exact Hf]|apply Le; reflexivity|exact Iw|discriminate|intros _; right; reflexivity|idtac].
Qed.

(** ** Somebody can go on *)
Definition left_over (y : sys) : N := total (fun t => blen (t_todo t)) (y_th y).

(** A thread that owns m_, or u_ while nobody owns m_, or wants something that is free. *)
Lemma can_go y i t : nth_error (y_th y) i = Some t -> tfit t ->
  match t_todo t with
  | [] => False
  | AShared :: _ => y_ex y = false /\ y_wait y = false
  | AExcl :: _ => y_ex y = false /\ y_sh y = 0
  | ALockU :: _ => y_u y = false
  | AFinish :: _ => g_prev (y_g y) = 0
  | _ => True
  end -> exists y', step i y = Some y' /\ left_over y' < left_over y.
Proof.
  intros E Hf H. destruct t as [[|a l] gs sh ex u]; cbn [t_todo] in H; [contradiction|].
  unfold step. rewrite E. unfold left_over.
  assert (Ul := fun t => total_upd (fun t => blen (t_todo t)) i t _ _ E). cbn [t_todo] in Ul.
  assert (B : blen (a :: l) = blen l + 1) by (unfold blen; cbn [length]; lia). rewrite B in Ul.
  unfold tfit in Hf. cbn [t_u t_sh t_ex t_gens t_todo] in Hf.
  destruct a.
  - destruct H as [-> ->]. eexists. split; [reflexivity|]. cbn [y_th]. match goal with |- total _ (upd i ?t _) < _ => specialize (Ul t) end. cbn [t_todo] in Ul. lia.
  - eexists. split; [reflexivity|]. cbn [y_th]. match goal with |- total _ (upd i ?t _) < _ => specialize (Ul t) end. cbn [t_todo] in Ul. lia.
  - destruct H as [-> ->]. eexists. split; [reflexivity|]. cbn [y_th]. match goal with |- total _ (upd i ?t _) < _ => specialize (Ul t) end. cbn [t_todo] in Ul. lia.
  - eexists. split; [reflexivity|]. cbn [y_th]. match goal with |- total _ (upd i ?t _) < _ => specialize (Ul t) end. cbn [t_todo] in Ul. lia.
  - rewrite H. eexists. split; [reflexivity|]. cbn [y_th]. match goal with |- total _ (upd i ?t _) < _ => specialize (Ul t) end. cbn [t_todo] in Ul. lia.
  - eexists. split; [reflexivity|]. cbn [y_th]. match goal with |- total _ (upd i ?t _) < _ => specialize (Ul t) end. cbn [t_todo] in Ul. lia.
  - eexists. split; [reflexivity|]. cbn [y_th]. match goal with |- total _ (upd i ?t _) < _ => specialize (Ul t) end. cbn [t_todo] in Ul. lia.
  - destruct gs as [|g gs]; [destruct Hf|]. eexists. split; [reflexivity|]. cbn [y_th]. match goal with |- total _ (upd i ?t _) < _ => specialize (Ul t) end. cbn [t_todo] in Ul. lia.
  - eexists. split; [reflexivity|]. cbn [y_th]. match goal with |- total _ (upd i ?t _) < _ => specialize (Ul t) end. cbn [t_todo] in Ul. lia.
  - unfold g_finished. rewrite H. eexists. split; [reflexivity|]. cbn [y_th]. match goal with |- total _ (upd i ?t _) < _ => specialize (Ul t) end. cbn [t_todo] in Ul. lia.
Qed.

Lemma progress y : inv y -> ~ finished y -> exists i y', step i y = Some y' /\ left_over y' < left_over y.
Proof.
  intros I Hn. pose proof (iv_fit _ I) as If. rewrite Forall_forall in If.
  assert (Go : forall t, In t (y_th y) -> match t_todo t with
    | [] => False
    | AShared :: _ => y_ex y = false /\ y_wait y = false
    | AExcl :: _ => y_ex y = false /\ y_sh y = 0
    | ALockU :: _ => y_u y = false
    | AFinish :: _ => g_prev (y_g y) = 0
    | _ => True
    end -> exists i y', step i y = Some y' /\ left_over y' < left_over y).
  { intros t Ht H. destruct (In_nth_error _ _ Ht) as [i E]. exists i. apply (can_go y i t E); auto. }
  destruct (y_ex y) eqn:Bx.
  { assert (X : total (fun t => b2n (t_ex t)) (y_th y) <> 0) by (rewrite (iv_ex _ I), Bx; discriminate).
    destruct (total_pos _ _ X) as (t & Ht & Ex). apply (Go t Ht). specialize (If t Ht). unfold tfit in If.
    destruct t as [[|[] l] gs sh [] u]; cbn [t_u t_sh t_ex t_gens t_todo b2n fit] in *; try tauto; try lia. }
  destruct (N.eq_dec (y_sh y) 0) as [Bs|Bs].
  2: { assert (X : total t_sh (y_th y) <> 0) by (rewrite (iv_sh _ I); exact Bs).
    destruct (total_pos _ _ X) as (t & Ht & Es). apply (Go t Ht). specialize (If t Ht). unfold tfit in If.
    destruct t as [[|[] l] gs sh ex u]; cbn [t_u t_sh t_ex t_gens t_todo fit] in *; try tauto; exfalso;
      destruct If as (X1 & X2 & X3); try contradiction; tauto. }
  assert (Bw : y_wait y = false).
  { destruct (y_wait y) eqn:E; [|reflexivity]. destruct (iv_wait _ I E); congruence. }
  (* m_ is free *)
  assert (Go2 : forall t, In t (y_th y) -> t_todo t <> [] ->
    (forall l, t_todo t = ALockU :: l -> y_u y = false) ->
    (forall l, t_todo t = AFinish :: l -> g_prev (y_g y) = 0) ->
    exists i y', step i y = Some y' /\ left_over y' < left_over y).
  { intros t Ht N1 N2 N3. apply (Go t Ht). destruct (t_todo t) as [|[] l]; auto; [eapply N2; reflexivity|eapply N3; reflexivity]. }
  assert (Gou : y_u y = true -> exists i y', step i y = Some y' /\ left_over y' < left_over y).
  { intros Bu.
    assert (X : total (fun t => b2n (t_u t)) (y_th y) <> 0) by (rewrite (iv_u _ I), Bu; discriminate).
    destruct (total_pos _ _ X) as (t & Ht & Eu). specialize (If t Ht). unfold tfit in If.
    destruct t as [todo gs sh ex [|]]; cbn [t_u b2n] in Eu; [|congruence]. cbn [t_u t_sh t_ex t_gens t_todo] in If.
    apply (Go2 _ Ht); cbn [t_todo].
    - intros ->. destruct If. discriminate.
    - intros l ->. destruct If. discriminate.
    - intros l ->. destruct If as (_ & _ & _ & X' & _). discriminate. }
  destruct (y_u y) eqn:Bu; [apply Gou; reflexivity|].
  destruct (N.eq_dec (g_prev (y_g y)) 0) as [Bp|Bp].
  - assert (X : exists t, In t (y_th y) /\ t_todo t <> []).
    { clear - Hn. unfold finished in Hn. induction (y_th y) as [|t ts IH]; [destruct Hn; constructor|].
      destruct (t_todo t) as [|a l] eqn:E.
      - destruct IH as (t' & H1 & H2); [intros H; apply Hn; constructor; auto|]. exists t'. split; [right; exact H1|exact H2].
      - exists t. split; [left; reflexivity|rewrite E; discriminate]. }
    destruct X as (t & Ht & Nt). apply (Go2 t Ht Nt); auto.
  - rewrite <- (iv_prev _ I) in Bp. destruct (total_pos _ _ Bp) as (t & Ht & Et). specialize (If t Ht). unfold tfit in If.
    destruct t as [todo [|g gs] sh ex u]; cbn [t_gens count] in Et; [congruence|]. cbn [t_u t_sh t_ex t_gens t_todo length] in If.
    apply (Go2 _ Ht); cbn [t_todo]; auto.
    + intros ->. destruct If as (_ & _ & _ & X'). discriminate.
    + intros l ->. destruct If as (X' & _). discriminate.
Qed.

Lemma reaches_trans y1 y2 y3 : reaches y1 y2 -> reaches y2 y3 -> reaches y1 y3.
Proof. induction 1; auto. intros. econstructor; eauto. Qed.
Lemma inv_reaches y y' : inv y -> reaches y y' -> inv y'.
Proof. intros I H. induction H; auto. apply IHreaches. eapply inv_step; eauto. Qed.

Lemma done_dec y : finished y \/ ~ finished y.
Proof.
  unfold finished. induction (y_th y) as [|t ts [IH|IH]]; [left; constructor| |right; intros H; inversion H; auto].
  destruct (t_todo t) as [|a l] eqn:E; [left; constructor; auto|right; intros H; inversion H; congruence].
Qed.

Lemma can_finish y : inv y -> exists y', reaches y y' /\ finished y'.
Proof.
  remember (left_over y) as n eqn:En. revert y En. induction n as [n IH] using (well_founded_induction N.lt_wf_0).
  intros y -> I. destruct (done_dec y) as [D|D]; [exists y; split; [constructor|exact D]|].
  destruct (progress y I D) as (i & y1 & H1 & H2).
  destruct (IH _ H2 y1 eq_refl (inv_step _ _ _ I H1)) as (y2 & H3 & H4).
  exists y2. split; [econstructor; eauto|exact H4].
Qed.

Lemma calm_finish progs y : Forall (Forall calm_job) progs -> reaches (start progs) y -> exists y', reaches y y' /\ finished y'.
Proof. intros H R. apply can_finish. eapply inv_reaches; [apply inv_start; exact H|exact R]. Qed.

(** ** A callback that needs m_ exclusively while its caller holds it shared *)
Fixpoint bal (sh : N) (l : list act) : Prop :=
  match l with
  | [] => True
  | AShared :: l' => bal (sh + 1) l'
  | AUnshared :: l' => 0 < sh /\ bal (sh - 1) l'
  | _ :: l' => bal sh l'
  end.
Fixpoint doomed (sh : N) (l : list act) : Prop :=
  match l with
  | [] => False
  | AShared :: l' => doomed (sh + 1) l'
  | AUnshared :: l' => doomed (sh - 1) l'
  | AExcl :: l' => 0 < sh \/ doomed sh l'
  | _ :: l' => doomed sh l'
  end.

Lemma succ_pred n : n + 1 - 1 = n. Proof. lia. Qed.
Lemma bal_call c : forall sh l, bal sh l -> bal sh (acts c ++ l).
Proof.
  induction c as [p|p cs IH|p b|] using call_size_ind; intros sh l Hl.
  - destruct p; cbn [acts app bal]; rewrite succ_pred; (split; [lia|exact Hl]).
  - assert (Hin : forall sh l, bal sh l -> bal sh (flat_map acts cs ++ l)).
    { clear Hl sh l. induction IH as [|c cs Hc Hcs IH2]; intros sh l Hl; [exact Hl|].
      cbn [flat_map]. rewrite <- app_assoc. apply Hc. apply IH2. exact Hl. }
    destruct p; cbn [acts]; rewrite <- !app_assoc; cbn [app bal].
    1,2: apply Hin; cbn [bal]; rewrite succ_pred; (split; [lia|exact Hl]).
    rewrite succ_pred. split; [lia|]. apply Hin. exact Hl.
  - destruct p, b; cbn [acts app bal]; rewrite succ_pred; (split; [lia|exact Hl]).
  - exact Hl.
Qed.
Lemma bal_jobs p : bal 0 (flat_map jacts p).
Proof.
  induction p as [|[c|[]] p IH]; [exact Logic.I| | |]; cbn [flat_map jacts app bal]; auto. apply bal_call. exact IH.
Qed.
Lemma doomed_call c : forall sh l, doomed sh l -> doomed sh (acts c ++ l).
Proof.
  induction c as [p|p cs IH|p b|] using call_size_ind; intros sh l Hl.
  - destruct p; cbn [acts app doomed]; rewrite succ_pred; exact Hl.
  - assert (Hin : forall sh l, doomed sh l -> doomed sh (flat_map acts cs ++ l)).
    { clear Hl sh l. induction IH as [|c cs Hc Hcs IH2]; intros sh l Hl; [exact Hl|].
      cbn [flat_map]. rewrite <- app_assoc. apply Hc. apply IH2. exact Hl. }
    destruct p; cbn [acts]; rewrite <- !app_assoc; cbn [app doomed].
    1,2: apply Hin; cbn [doomed]; rewrite succ_pred; exact Hl.
    rewrite succ_pred. apply Hin. exact Hl.
  - destruct p, b; cbn [acts app doomed]; rewrite succ_pred; auto.
  - right. exact Hl.
Qed.
Lemma doomed_calls cs : forall sh l, doomed sh l -> doomed sh (flat_map acts cs ++ l).
Proof.
  induction cs as [|c cs IH]; intros sh l Hl; [exact Hl|]. cbn [flat_map]. rewrite <- app_assoc.
  apply doomed_call. apply IH. exact Hl.
Qed.
Lemma doomed_change c sh l : changes c -> 0 < sh -> doomed sh (acts c ++ l).
Proof.
  intros Hc Hs. destruct c as [|[] []|]; try contradiction; cbn [acts app doomed]; rewrite ?succ_pred; auto.
Qed.
Lemma doomed_job j sh l : doomed sh l -> doomed sh (jacts j ++ l).
Proof. intros H. destruct j as [c|[]]; [apply doomed_call; exact H| |]; cbn [jacts app doomed]; auto. Qed.

Definition caught (i : nat) (y : sys) : Prop :=
  Forall (fun t => bal (t_sh t) (t_todo t)) (y_th y) /\ total t_sh (y_th y) = y_sh y /\
  exists t, nth_error (y_th y) i = Some t /\ doomed (t_sh t) (t_todo t).

Lemma caught_step i j y y' : caught i y -> step j y = Some y' -> caught i y'.
Proof.
  intros (Hb & Hs & t & Ht & Hd) H. unfold step in H.
  destruct (nth_error (y_th y) j) as [[[|a l] gs sh ex u]|] eqn:E; try discriminate.
  assert (Hin := nth_error_In _ _ E).
  assert (Hb' := Hb). rewrite Forall_forall in Hb'. specialize (Hb' _ Hin). cbn [t_sh t_todo] in Hb'.
  assert (Sh := total_in t_sh _ _ Hin). cbn [t_sh] in Sh. rewrite Hs in Sh.
  assert (U := fun t => total_upd t_sh j t _ _ E). cbn [t_sh] in U.
  assert (Main : forall t' s', y_th y' = upd j t' (y_th y) -> y_sh y' = s' -> t_sh t' + y_sh y = s' + sh ->
    bal (t_sh t') (t_todo t') -> (doomed sh (a :: l) -> doomed (t_sh t') (t_todo t')) -> caught i y').
  { intros t' s' E1 E2 E3 E4 E5. unfold caught. rewrite E1, E2. split; [apply Forall_upd; assumption|]. split.
    - specialize (U t'). lia.
    - rewrite nth_upd. destruct (Nat.eqb_spec j i) as [->|Nj].
      + rewrite E. exists t'. split; [reflexivity|]. apply E5. rewrite E in Ht. injection Ht as <-. exact Hd.
      + exists t. split; assumption. }
  destruct a; cbn [bal doomed] in Hb', Main.
  - destruct (y_ex y || y_wait y); [discriminate|]. injection H as <-.
    eapply Main; cbn [y_th y_sh]; [reflexivity|reflexivity| | |]; cbn [t_sh t_todo]; auto; lia.
  - injection H as <-.
    eapply Main; cbn [y_th y_sh]; [reflexivity|reflexivity| | |]; cbn [t_sh t_todo]; auto; try tauto; lia.
  - destruct (y_ex y || (0 <? y_sh y)) eqn:B.
    + destruct (y_wait y); [discriminate|]. injection H as <-. unfold caught. cbn [y_th y_sh]. eauto.
    + injection H as <-. apply orb_false_elim in B as [B1 B2]. apply N.ltb_ge in B2.
      eapply Main; cbn [y_th y_sh]; [reflexivity|reflexivity| | |]; cbn [t_sh t_todo]; auto; try lia.
      intros [X|X]; [lia|exact X].
  - injection H as <-.
    eapply Main; cbn [y_th y_sh]; [reflexivity|reflexivity| | |]; cbn [t_sh t_todo]; auto; lia.
  - destruct (y_u y); [discriminate|]. injection H as <-.
    eapply Main; cbn [y_th y_sh]; [reflexivity|reflexivity| | |]; cbn [t_sh t_todo]; auto; lia.
  - injection H as <-.
    eapply Main; cbn [y_th y_sh]; [reflexivity|reflexivity| | |]; cbn [t_sh t_todo]; auto; lia.
  - injection H as <-.
    eapply Main; cbn [y_th y_sh]; [reflexivity|reflexivity| | |]; cbn [t_sh t_todo]; auto; lia.
  - destruct gs; [discriminate|]. injection H as <-.
    eapply Main; cbn [y_th y_sh]; [reflexivity|reflexivity| | |]; cbn [t_sh t_todo]; auto; lia.
  - injection H as <-.
    eapply Main; cbn [y_th y_sh]; [reflexivity|reflexivity| | |]; cbn [t_sh t_todo]; auto; lia.
  - destruct (g_finished (y_g y)); [|discriminate]. injection H as <-.
    eapply Main; cbn [y_th y_sh]; [reflexivity|reflexivity| | |]; cbn [t_sh t_todo]; auto; lia.
Qed.
Lemma caught_reaches i y y' : caught i y -> reaches y y' -> caught i y'.
Proof. intros C H. induction H; auto. apply IHreaches. eapply caught_step; eauto. Qed.

Lemma change_hangs progs i before p cs c cs' after : nth_error progs i = Some (before ++ JCall (Fetch p (Some (cs ++ c :: cs'))) :: after) ->
  p <> InFile -> changes c -> forall y, reaches (start progs) y -> exists t, nth_error (y_th y) i = Some t /\ t_todo t <> [].
Proof.
  intros Hi Hp Hc y Hr.
  assert (C : caught i (start progs)).
  { unfold caught, start. cbn [y_th y_sh]. split; [|split].
    - apply Forall_map. apply Forall_forall. intros q _. cbn [t_sh t_todo]. apply bal_jobs.
    - rewrite total_map. apply total_const0. reflexivity.
    - rewrite nth_error_map, Hi. cbn [option_map]. eexists. split; [reflexivity|]. cbn [t_sh t_todo].
      rewrite flat_map_app. cbn [flat_map jacts].
      assert (D : doomed 0 (acts (Fetch p (Some (cs ++ c :: cs'))) ++ flat_map jacts after)).
      { destruct p; [| |congruence]; cbn [acts]; rewrite <- !app_assoc; cbn [app doomed];
          rewrite flat_map_app, <- app_assoc; apply doomed_calls; cbn [flat_map]; rewrite <- app_assoc;
          apply doomed_change; auto; lia. }
      clear Hi. induction before as [|j before IH]; [exact D|]. cbn [flat_map]. rewrite <- app_assoc. apply doomed_job. exact IH. }
  destruct (caught_reaches _ _ _ C Hr) as (_ & _ & t & Ht & Hd). exists t. split; [exact Ht|]. intros E. rewrite E in Hd. exact Hd.
Qed.

(** ** A callback that fetches while another thread waits *)
Lemma stays y : (forall i, step i y = None) -> forall y', reaches y y' -> y' = y.
Proof. intros H y' R. destruct R as [|y i y1 y2 S R]; [reflexivity|]. rewrite H in S. discriminate. Qed.

Lemma fetch_shared q cb : exists l, acts (Fetch q cb) = AShared :: l.
Proof. destruct q; cbn [acts app]; eexists; reflexivity. Qed.
Lemma nested_hangs p q cb cs b : p <> InFile ->
  exists y, reaches (start [[JCall (Fetch p (Some (Fetch q cb :: cs)))]; [JFlush b]]) y /\
    forall y', reaches y y' -> ~ finished y'.
Proof.
  intros Hp. destruct (fetch_shared q cb) as [l El].
  assert (E0 : exists l', acts (Fetch p (Some (Fetch q cb :: cs))) = AShared :: AShared :: l').
  { destruct p; [| |congruence]; cbn [acts flat_map app]; fold (acts (Fetch q cb)); change (exists l' : list act,
      AShared :: (acts (Fetch q cb) ++ flat_map acts cs) ++ [AUnshared] = AShared :: AShared :: l'); rewrite El; eexists; reflexivity. }
  destruct E0 as [l' E0]. destruct (jacts (JFlush b)) as [|a m] eqn:Ef; [destruct b; discriminate|].
  assert (a = AExcl) as -> by (destruct b; injection Ef as <- _; reflexivity).
  unfold start. cbn [map flat_map]. change (jacts (JCall ?c)) with (acts c). rewrite E0, Ef. cbn [app].
  eexists. split.
  - eapply (reach_step _ 0%nat); [unfold step; cbn [y_th nth_error y_ex y_wait y_sh y_u y_g orb upd]; reflexivity|].
    eapply (reach_step _ 1%nat); [unfold step; cbn [y_th nth_error y_ex y_wait y_sh y_u y_g orb upd]; reflexivity|].
    constructor.
  - intros y' R. apply stays in R.
    + subst y'. unfold finished. cbn [y_th]. intros F. inversion F as [|t ts X]. discriminate X.
    + intros [|[|i]]; unfold step; cbn [y_th nth_error y_ex y_wait y_sh y_u y_g orb]; [reflexivity|reflexivity|].
      destruct i; reflexivity.
Qed.
