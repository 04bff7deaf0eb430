(** Facts about the accesses of Model/Access.v: which locks are held at each. *)
From Coq Require Import Relations.
From Verif Require Import Model.Bytes Model.Access SpecRace.
Open Scope nat_scope.

Definition mode_eqb (a b : mode) : bool := match a, b with Sh, Sh | Ex, Ex => true | _, _ => false end.
Fixpoint held_eqb (x y : held) : bool :=
  match x, y with
  | [], [] => true
  | (l, m) :: x, (l', m') :: y => lock_eqb l l' && mode_eqb m m' && held_eqb x y
  | _, _ => false
  end.
Lemma lock_eqb_eq a b : lock_eqb a b = true <-> a = b.
Proof. destruct a, b; simpl; split; intros; congruence. Qed.
Lemma held_eqb_eq x : forall y, held_eqb x y = true -> x = y.
Proof.
  induction x as [|[l m] x IH]; intros [|[l' m'] y]; simpl; try discriminate; [reflexivity|].
  intros H. apply andb_prop in H as [H H3]. apply andb_prop in H as [H1 H2].
  apply lock_eqb_eq in H1. apply IH in H3. destruct m, m'; try discriminate; congruence.
Qed.

(** What is held when [c] has been run from [h]: None if that is not determined, Some None if
    [c] always returns. *)
Definition both (x y : option (option held)) : option (option held) :=
  match x, y with
  | Some None, y => y
  | x, Some None => x
  | Some (Some h), Some (Some h') => if held_eqb h h' then Some (Some h) else None
  | _, _ => None
  end.
Fixpoint ends (h : held) (c : code) : option (option held) :=
  match c with
  | End => Some (Some h)
  | Return => Some None
  | Do a k => ends (holds_after a h) k
  | Or x y k =>
    match both (ends h x) (ends h y) with
    | Some (Some h) => ends h k
    | r => r
    end
  | Many x k =>
    match both (Some (Some h)) (ends h x) with
    | Some (Some h) => ends h k
    | r => r
    end
  end.

(** The actions of [c] run from [h], each with what is held. *)
Fixpoint sites (h : held) (c : code) : list (held * act) :=
  match c with
  | End | Return => []
  | Do a k => (h, a) :: sites (holds_after a h) k
  | Or x y k =>
    sites h x ++ sites h y ++
    match both (ends h x) (ends h y) with Some (Some h) => sites h k | _ => [] end
  | Many x k =>
    sites h x ++ match both (Some (Some h)) (ends h x) with Some (Some h) => sites h k | _ => [] end
  end.

Lemma ends_cat x k : forall h,
  ends h (cat x k) = match ends h x with Some (Some h) => ends h k | r => r end.
Proof.
  induction x as [| |a x IH|y IHy z IHz x IH|y IHy x IH]; intros h; cbn [cat ends]; auto.
  - destruct (both (ends h y) (ends h z)) as [[h1|]|]; auto.
  - destruct (both (Some (Some h)) (ends h y)) as [[h1|]|]; auto.
Qed.
Lemma sites_cat x k : forall h,
  incl (sites h (cat x k)) (sites h x ++ match ends h x with Some (Some h) => sites h k | _ => [] end).
Proof.
  induction x as [| |a x IH|y IHy z IHz x IH|y IHy x IH]; intros h; cbn [cat ends sites]; try apply incl_refl.
  - intros s Hs. apply in_app_iff. destruct Hs as [Hs|Hs]; [left; left; exact Hs|].
    apply IH in Hs. apply in_app_iff in Hs as [Hs|Hs]; [left; right; exact Hs|right; exact Hs].
  - intros s Hs. rewrite !in_app_iff in *. destruct Hs as [Hs|[Hs|Hs]]; auto.
    destruct (both (ends h y) (ends h z)) as [[h1|]|]; auto.
    apply IH in Hs. rewrite in_app_iff in Hs. tauto.
  - intros s Hs. rewrite !in_app_iff in *. destruct Hs as [Hs|Hs]; auto.
    destruct (both (Some (Some h)) (ends h y)) as [[h1|]|]; auto.
    apply IH in Hs. rewrite in_app_iff in Hs. tauto.
Qed.

Lemma both_same h r h1 : both (Some (Some h)) r = Some h1 -> h1 = Some h /\ (r = Some None \/ r = Some (Some h)).
Proof.
  unfold both. destruct r as [[h2|]|]; [|intros [= <-]; auto|intros; discriminate].
  destruct (held_eqb h h2) eqn:E; [|discriminate]. apply held_eqb_eq in E as <-. intros [= <-]; auto.
Qed.
Lemma both_left x y r : both x y = Some r ->
  (x = Some None \/ x = Some r) /\ (y = Some None \/ y = Some r).
Proof.
  unfold both. destruct x as [[h1|]|], y as [[h2|]|]; try (intros; discriminate); try (intros [= <-]; auto; fail).
  destruct (held_eqb h1 h2) eqn:E; [|discriminate]. apply held_eqb_eq in E as <-. intros [= <-]; auto.
Qed.

(** ** One thread *)

(** All accesses of all calls. *)
Definition all_sites : list (held * act) := flat_map (sites []) calls.

Definition thread_ok (x : held * code) : Prop :=
  ends (fst x) (snd x) <> None /\ incl (sites (fst x) (snd x)) all_sites.

Lemma calls_end : forallb (fun c => match ends [] c with None => false | _ => true end) calls = true.
Proof. vm_compute. reflexivity. Qed.
Lemma ok_call n c : nth_error calls n = Some c -> thread_ok ([], c).
Proof.
  intros H. apply nth_error_In in H. split; cbn [fst snd].
  - pose proof calls_end as X. rewrite forallb_forall in X. specialize (X c H). destruct (ends [] c); congruence.
  - intros s Hs. apply in_flat_map. exists c. auto.
Qed.
Lemma ok_do h a k : thread_ok (h, Do a k) -> In (h, a) all_sites /\ thread_ok (holds_after a h, k).
Proof.
  intros [H1 H2]; cbn [fst snd ends sites] in *. split; [apply H2; left; reflexivity|].
  split; cbn [fst snd]; [exact H1|]. intros s Hs. apply H2. right. exact Hs.
Qed.
Lemma ok_return h : thread_ok (h, Return) -> thread_ok (h, End).
Proof. intros _. split; cbn [fst snd ends sites]; [discriminate|intros s []]. Qed.
Lemma ok_or h x y k : thread_ok (h, Or x y k) -> thread_ok (h, cat x k) /\ thread_ok (h, cat y k).
Proof.
  intros [H1 H2]; cbn [fst snd ends sites] in *.
  destruct (both (ends h x) (ends h y)) as [r|] eqn:E; [|congruence].
  apply both_left in E as [Ex Ey].
  assert (Q : forall z, (ends h z = Some None \/ ends h z = Some r) -> incl (sites h z) (sites h x ++ sites h y) ->
    thread_ok (h, cat z k)).
  { intros z Hz Hi. split; cbn [fst snd].
    - rewrite ends_cat. destruct Hz as [-> | ->]; [discriminate|exact H1].
    - intros s Hs. apply sites_cat in Hs. apply H2. rewrite app_assoc. apply in_app_iff.
      apply in_app_iff in Hs as [Hs|Hs]; [left; apply Hi; exact Hs|right].
      destruct Hz as [Hz|Hz]; rewrite Hz in Hs; [contradiction|exact Hs]. }
  split; apply Q; try assumption; intros s Hs; apply in_app_iff; auto.
Qed.
Lemma ok_many h x k : thread_ok (h, Many x k) -> thread_ok (h, cat x (Many x k)) /\ thread_ok (h, k).
Proof.
  intros [H1 H2]; cbn [fst snd] in *. pose proof H1 as H1'. pose proof H2 as H2'. cbn [ends sites] in H1, H2.
  destruct (both (Some (Some h)) (ends h x)) as [r|] eqn:E; [|congruence].
  pose proof E as E'. apply both_same in E as [-> Ex]. split; split; cbn [fst snd].
  - rewrite ends_cat. destruct Ex as [-> | ->]; [discriminate|exact H1'].
  - intros s Hs. apply sites_cat in Hs. apply in_app_iff in Hs as [Hs|Hs].
    + apply H2. apply in_app_iff. auto.
    + destruct Ex as [Ex|Ex]; rewrite Ex in Hs; [contradiction|]. apply H2'. exact Hs.
  - exact H1.
  - intros s Hs. apply H2. apply in_app_iff. auto.
Qed.

(** ** All threads *)

Lemma nth_put {A} t (x : A) l i : t < length l ->
  nth_error (firstn t l ++ x :: skipn (S t) l) i = if i =? t then Some x else nth_error l i.
Proof.
  revert t i; induction l as [|y l IH]; intros t i H; simpl in H; [lia|].
  destruct t as [|t]; [destruct i; reflexivity|]. destruct i as [|i]; [reflexivity|].
  change (nth_error (firstn t l ++ x :: skipn (S t) l) i = if S i =? S t then Some x else nth_error l i).
  rewrite (IH t i ltac:(lia)). reflexivity.
Qed.
Lemma nth_others {A} t (l : list A) i x : i <> t -> nth_error l i = Some x -> In x (firstn t l ++ skipn (S t) l).
Proof.
  revert t i; induction l as [|y l IH]; intros t i H E; [destruct i; discriminate|].
  destruct t as [|t].
  - destruct i as [|i]; [congruence|]. simpl. eapply nth_error_In. exact E.
  - destruct i as [|i]; cbn [nth_error] in E.
    + injection E as ->. left. reflexivity.
    + right. apply (IH t i); [lia|exact E].
Qed.

Record mem_ok (s : mem) : Prop := MemOk {
  mo_th : forall t x, nth_error (me_th s) t = Some x -> thread_ok x;
  mo_apart : forall t t' x y, t <> t' -> nth_error (me_th s) t = Some x -> nth_error (me_th s) t' = Some y ->
    forall l m, In l (fst x) -> In m (fst y) -> clash l m = false;
  mo_saw : forall t x m, nth_error (me_th s) t = Some x ->
    (In (SawEcb, m) (fst x) -> m = Sh /\ me_ecb s = true) /\ (In (SawEc, m) (fst x) -> m = Sh /\ me_ec s = true);
  mo_ecb : me_ecb s = true -> me_ec s = true;
  mo_ec : me_ec s = true -> (1 <= me_fails s)%N }.

(** What the sites tell about the two flags. *)
Definition site_ok (x : held * act) : bool :=
  match snd x with
  | Acq SawEcb _ | Acq SawEc _ => false
  | SetEcb => existsb (fun l => lock_eqb (fst l) SawEc) (fst x)
  | _ => true
  end.
Lemma sites_ok : forallb site_ok all_sites = true.
Proof. vm_compute. reflexivity. Qed.
Lemma site_is_ok x : In x all_sites -> site_ok x = true.
Proof. intros H. pose proof sites_ok as X. rewrite forallb_forall in X. apply X. exact H. Qed.

Lemma in_clash_sym a b : clash a b = clash b a.
Proof. destruct a as [[] []], b as [[] []]; reflexivity. Qed.

(** A thread that goes on without changing the flags, holding no more. *)
Lemma mem_ok_put s t x c : mem_ok s -> nth_error (me_th s) t = Some x -> thread_ok (fst x, c) -> mem_ok (put t (fst x, c) s).
Proof.
  intros M E K. assert (L : t < length (me_th s)) by (apply nth_error_Some; congruence).
  destruct M as [M1 M2 M3 M4 M5]. split; cbn [put me_th me_ecb me_ec me_fails]; auto.
  - intros i y. rewrite nth_put by exact L. destruct (Nat.eqb_spec i t); [intros [= <-]; exact K|apply M1].
  - intros i j y z Hij. rewrite !nth_put by exact L.
    destruct (Nat.eqb_spec i t), (Nat.eqb_spec j t); subst; try congruence.
    + intros [= <-] Ez. exact (M2 t j x z ltac:(congruence) E Ez).
    + intros Ey [= <-]. exact (M2 i t y x ltac:(congruence) Ey E).
    + apply M2. exact Hij.
  - intros i y m. rewrite nth_put by exact L. destruct (Nat.eqb_spec i t); [|apply M3].
    intros [= <-]. exact (M3 t x m E).
Qed.

Lemma in_add x h y : In y (add x h) -> y = x \/ In y h.
Proof.
  induction h as [|z h IH]; cbn [add In]; [intuition|].
  destruct (_ <=? _)%N; cbn [In]; intuition.
Qed.

(** A thread that performs an action. *)
Lemma mem_ok_do s t h a k s1 : mem_ok s -> nth_error (me_th s) t = Some (h, Do a k) -> effect t a s = Some s1 ->
  mem_ok (put t (holds_after a h, k) s1).
Proof.
  intros M E F. assert (L : t < length (me_th s)) by (apply nth_error_Some; congruence).
  pose proof (mo_th s M t _ E) as K. apply ok_do in K as [Ks K]. apply site_is_ok in Ks.
  assert (X : me_th s1 = me_th s /\
    (me_ecb s = true -> me_ecb s1 = true) /\ (me_ec s = true -> me_ec s1 = true) /\
    (me_ecb s1 = true -> me_ec s1 = true) /\ (me_ec s1 = true -> (1 <= me_fails s1)%N) /\
    (forall l, In l (holds_after a h) -> In l h \/
       (exists m, a = Acq (fst l) m /\ snd l = m) \/ l = (SawEcb, Sh) /\ me_ecb s1 = true \/ l = (SawEc, Sh) /\ me_ec s1 = true)).
  { pose proof (mo_ecb s M) as H1. pose proof (mo_ec s M) as H2.
    destruct a as [l m|l|p|p|b| |b]; cbn [effect holds_after] in *.
    - destruct (existsb _ _); [discriminate|]. injection F as <-. repeat split; auto.
      intros x Hx. apply in_add in Hx as [->|Hx]; [right; left; exists m; auto|auto].
    - injection F as <-. repeat split; auto. intros x Hx. apply filter_In in Hx as [Hx _]. auto.
    - injection F as <-. repeat split; auto.
    - destruct p; injection F as <-; cbn [me_th me_ecb me_ec me_fails]; repeat split; auto; try (intros; lia).
      intros x Hx; apply in_add in Hx as [->|Hx]; auto.
    - destruct (eqb b (me_ecb s)) eqn:B; [|discriminate]. injection F as <-. apply eqb_prop in B. subst b.
      repeat split; auto. destruct (me_ecb s); auto. intros x Hx; apply in_add in Hx as [->|Hx]; auto.
    - injection F as <-. cbn [me_th me_ecb me_ec me_fails]. repeat split; auto.
      intros _. unfold site_ok in Ks. cbn [snd fst] in Ks. apply existsb_exists in Ks as ([l m] & Hl & Q).
      apply lock_eqb_eq in Q. cbn [fst] in Q. subst l. exact (proj2 (proj2 (mo_saw s M t _ m E) Hl)).
    - destruct (eqb b (me_ec s)) eqn:B; [|discriminate]. injection F as <-. apply eqb_prop in B. subst b.
      repeat split; auto. destruct (me_ec s); auto. intros x Hx; apply in_add in Hx as [->|Hx]; auto. }
  destruct X as (X1 & X2 & X3 & X4 & X5 & X6).
  assert (Y : forall j y, j <> t -> nth_error (me_th s) j = Some y ->
    forall l m, In l (holds_after a h) -> In m (fst y) -> clash l m = false).
  { intros j y Hj Ey l m Hl Hm. apply X6 in Hl as [Hl|[(q & -> & Hq)|[[-> _]|[-> _]]]].
    - exact (mo_apart s M t j _ y ltac:(congruence) E Ey l m Hl Hm).
    - cbn [effect] in F. destruct l as [l q']. cbn [fst snd] in *. subst q'.
      destruct (existsb _ _) eqn:B in F; [discriminate|].
      destruct (clash (l, q) m) eqn:C; [|reflexivity]. exfalso.
      assert (existsb (fun x => existsb (clash (l, q)) (fst x)) (firstn t (me_th s) ++ skipn (S t) (me_th s)) = true).
      { apply existsb_exists. exists y. split; [exact (nth_others t _ j y Hj Ey)|].
        apply existsb_exists. exists m. auto. }
      congruence.
    - destruct m as [l q]. unfold clash. cbn [fst snd]. destruct l; try reflexivity.
      destruct (mo_saw s M j y q Ey) as [Z _]. destruct (Z Hm) as [-> _]. reflexivity.
    - destruct m as [l q]. unfold clash. cbn [fst snd]. destruct l; try reflexivity.
      destruct (mo_saw s M j y q Ey) as [_ Z]. destruct (Z Hm) as [-> _]. reflexivity. }
  split; cbn [put me_th me_ecb me_ec me_fails]; rewrite ?X1; auto.
  - intros i y. rewrite nth_put by exact L. destruct (Nat.eqb_spec i t); [intros [= <-]; exact K|apply (mo_th s M)].
  - intros i j y z Hij. rewrite !nth_put by exact L.
    destruct (Nat.eqb_spec i t), (Nat.eqb_spec j t); subst; try congruence.
    + intros [= <-] Ez. exact (Y j z ltac:(congruence) Ez).
    + intros Ey [= <-] l m Hl Hm. rewrite in_clash_sym. exact (Y i y ltac:(congruence) Ey m l Hm Hl).
    + apply (mo_apart s M). exact Hij.
  - intros i y m. rewrite nth_put by exact L. destruct (Nat.eqb_spec i t) as [->|N].
    + intros [= <-]. cbn [fst]. split; intros Hl; apply X6 in Hl as [Hl|[(q & -> & Hq)|[[Q Hf]|[Q Hf]]]].
      * destruct (proj1 (mo_saw s M t _ m E) Hl). auto.
      * discriminate.
      * injection Q as ->. auto.
      * discriminate.
      * destruct (proj2 (mo_saw s M t _ m E) Hl). auto.
      * discriminate.
      * discriminate.
      * injection Q as ->. auto.
    + intros Ey. destruct (mo_saw s M i y m Ey) as [Z1 Z2]. split; intros Hl; [destruct (Z1 Hl)|destruct (Z2 Hl)]; auto.
Qed.

Lemma mem_ok_step s t ch s' : mem_ok s -> astep t ch s = Some s' -> mem_ok s'.
Proof.
  intros M. unfold astep. destruct (nth_error (me_th s) t) as [[h c]|] eqn:E; [|discriminate].
  pose proof (mo_th s M t _ E) as K. destruct c as [| |a k|x y k|x k]; destruct ch as [n| | |]; try discriminate.
  - destruct h; [|discriminate]. destruct (nth_error calls n) as [c|] eqn:C; [|discriminate]. intros [= <-].
    apply (mem_ok_put s t ([], End) c M E). exact (ok_call n c C).
  - intros [= <-]. apply (mem_ok_put s t (h, Return) End M E). exact (ok_return h K).
  - destruct (effect t a s) as [s1|] eqn:F; [|discriminate]. intros [= <-]. exact (mem_ok_do s t h a k s1 M E F).
  - intros [= <-]. apply (mem_ok_put s t (h, Or x y k) _ M E). exact (proj1 (ok_or h x y k K)).
  - intros [= <-]. apply (mem_ok_put s t (h, Or x y k) _ M E). exact (proj2 (ok_or h x y k K)).
  - intros [= <-]. apply (mem_ok_put s t (h, Many x k) _ M E). exact (proj1 (ok_many h x k K)).
  - intros [= <-]. apply (mem_ok_put s t (h, Many x k) _ M E). exact (proj2 (ok_many h x k K)).
Qed.
Lemma reached_ok n s : reached n s -> mem_ok s.
Proof.
  induction 1 as [|s t ch s' _ IH E]; [|exact (mem_ok_step s t ch s' IH E)].
  assert (Q : forall t x, nth_error (repeat ([] : held, End) n) t = Some x -> x = ([], End)).
  { intros t x H. apply nth_error_In in H. apply repeat_spec in H. exact H. }
  split; cbn [quiet_mem me_th me_ecb me_ec me_fails]; try discriminate.
  - intros t x H. apply Q in H as ->. split; cbn [fst snd ends sites]; [discriminate|intros s []].
  - intros t t' x y _ H _ l m Hl _. apply Q in H as ->. destruct Hl.
  - intros t x m H. apply Q in H as ->. split; intros [].
Qed.

(** ** Races *)

Definition place_eqb (a b : place) : bool :=
  match a, b with
  | Opened, Opened | P0, P0 | P0off, P0off | P1, P1 | C1, C1 | Buckets, Buckets | Modulus, Modulus | Frac, Frac
  | When, When | Rate, Rate | Burst, Burst | Ec, Ec | Lf, Lf | Fixed, Fixed | Gens, Gens | Lists, Lists
  | NumThreads, NumThreads | Stopping, Stopping | Runner, Runner => true
  | _, _ => false
  end.
Definition touchesb (a : act) (p : place) : bool :=
  match a with
  | Rd q | Wr q => place_eqb p q
  | EcIs _ => place_eqb p Ec
  | _ => false
  end.
Lemma touches_b a p : touches a p -> touchesb a p = true.
Proof. intros [->|[->|[-> [b ->]]]]; try reflexivity; destruct p; reflexivity. Qed.

(** A site that writes and one that touches the same place: they exclude each other, or
    the place is ec_ and the second has seen ecb_ set. *)
Definition apart (x y : held * act) : bool :=
  match snd x with
  | Wr p =>
    if touchesb (snd y) p
    then existsb (fun l => existsb (clash l) (fst y)) (fst x)
         || place_eqb p Ec && existsb (fun l => lock_eqb (fst l) SawEcb) (fst y)
    else true
  | _ => true
  end.
Lemma sites_apart : forallb (fun x => forallb (apart x) all_sites) all_sites = true.
Proof. vm_compute. reflexivity. Qed.

Lemma no_race_but_ec n s p : reached n s -> race s p -> p = Ec /\ me_ecb s = true /\ (1 <= me_fails s)%N.
Proof.
  intros R (t & t' & a & Ht & (h & k & E) & (h' & k' & E') & Ha).
  pose proof (reached_ok n s R) as M.
  destruct (ok_do _ _ _ (mo_th s M t _ E)) as [S1 _]. destruct (ok_do _ _ _ (mo_th s M t' _ E')) as [S2 _].
  pose proof sites_apart as X. rewrite forallb_forall in X. specialize (X _ S1). rewrite forallb_forall in X.
  specialize (X _ S2). unfold apart in X. cbn [fst snd] in X. rewrite (touches_b a p Ha) in X.
  apply orb_prop in X as [X|X].
  - exfalso. apply existsb_exists in X as (l & Hl & X). apply existsb_exists in X as (m & Hm & X).
    pose proof (mo_apart s M t t' _ _ Ht E E' l m Hl Hm). congruence.
  - apply andb_prop in X as [X1 X2]. split; [destruct p; try discriminate; reflexivity|].
    apply existsb_exists in X2 as ([l m] & Hl & X2). apply lock_eqb_eq in X2. cbn [fst] in X2. subst l.
    destruct (proj1 (mo_saw s M t' _ m E') Hl) as [_ Hb]. split; [exact Hb|].
    exact (mo_ec s M (mo_ecb s M Hb)).
Qed.

(** ** Waiting for mutexes *)

(** u_ before m_ before the mutex of the gentex before that of the context. *)
Definition order_ok (x : held * act) : bool :=
  match snd x with
  | Acq l _ => if is_mutex l then forallb (fun y => negb (is_mutex (fst y)) || (rank (fst y) <? rank l)%N) (fst x) else true
  | Rel l => existsb (fun y => lock_eqb (fst y) l) (fst x)
  | _ => true
  end.
Lemma sites_ordered : forallb order_ok all_sites = true.
Proof. vm_compute. reflexivity. Qed.
Lemma site_ordered x : In x all_sites -> order_ok x = true.
Proof. intros H. pose proof sites_ordered as X. rewrite forallb_forall in X. apply X. exact H. Qed.

Lemma lower_held n s t h l m k : reached n s -> nth_error (me_th s) t = Some (h, Do (Acq l m) k) -> is_mutex l = true ->
  forall l' m', In (l', m') h -> is_mutex l' = true -> (rank l' < rank l)%N.
Proof.
  intros R E Hl l' m' Hi Hm. destruct (ok_do _ _ _ (mo_th s (reached_ok n s R) t _ E)) as [S _].
  apply site_ordered in S. unfold order_ok in S. cbn [fst snd] in S. rewrite Hl, forallb_forall in S.
  specialize (S _ Hi). cbn [fst] in S. rewrite Hm in S. apply N.ltb_lt. exact S.
Qed.
Lemma waits_up n s t t' : reached n s -> waits s t t' ->
  exists l m h k, nth_error (me_th s) t = Some (h, Do (Acq l m) k) /\ is_mutex l = true /\
    exists h' c' m', nth_error (me_th s) t' = Some (h', c') /\ In (l, m') h'.
Proof.
  intros R (l & m & m' & Hl & (h & k & E) & (h' & c' & E' & Hi) & _). exists l, m, h, k.
  split; [exact E|]. split; [exact Hl|]. exists h', c', m'. auto.
Qed.
(** Along a path of waiting threads the mutexes waited for go up. *)
Lemma path_up n s t t' : reached n s -> clos_trans nat (waits s) t t' ->
  exists l m h k, nth_error (me_th s) t = Some (h, Do (Acq l m) k) /\ is_mutex l = true /\
    exists l' h' c' m', nth_error (me_th s) t' = Some (h', c') /\ In (l', m') h' /\ is_mutex l' = true /\ (rank l <= rank l')%N.
Proof.
  intros R H. induction H as [t t' H|t t1 t' _ IH1 _ IH2].
  - destruct (waits_up n s t t' R H) as (l & m & h & k & E & Hl & h' & c' & m' & E' & Hi).
    exists l, m, h, k. split; [exact E|]. split; [exact Hl|]. exists l, h', c', m'. repeat split; auto. lia.
  - destruct IH1 as (l & m & h & k & E & Hl & l1 & h1 & c1 & m1 & E1 & Hi1 & Hl1 & Q1).
    destruct IH2 as (l2 & m2 & h2 & k2 & E2 & Hl2 & l' & h' & c' & m' & E' & Hi' & Hl' & Q2).
    rewrite E1 in E2. injection E2 as -> ->.
    pose proof (lower_held n s t1 _ _ _ _ R E1 Hl2 l1 m1 Hi1 Hl1) as Q3.
    exists l, m, h, k. split; [exact E|]. split; [exact Hl|]. exists l', h', c', m'. repeat split; auto. lia.
Qed.
Lemma no_circle n s t : reached n s -> ~ clos_trans nat (waits s) t t.
Proof.
  intros R H. destruct (path_up n s t t R H) as (l & m & h & k & E & Hl & l' & h' & c' & m' & E' & Hi & Hl' & Q).
  rewrite E in E'. injection E' as <- <-. pose proof (lower_held n s t _ _ _ _ R E Hl l' m' Hi Hl'). lia.
Qed.

(** ** What is held at the end of a call *)

Fixpoint leaves (h : held) (c : code) : list held :=
  match c with
  | End => []
  | Return => [h]
  | Do a k => leaves (holds_after a h) k
  | Or x y k =>
    leaves h x ++ leaves h y ++ match both (ends h x) (ends h y) with Some (Some h) => leaves h k | _ => [] end
  | Many x k =>
    leaves h x ++ match both (Some (Some h)) (ends h x) with Some (Some h) => leaves h k | _ => [] end
  end.
Definition at_end (h : held) (c : code) : list held :=
  leaves h c ++ match ends h c with Some (Some h) => [h] | _ => [] end.
Definition all_ends : list held := flat_map (at_end []) calls.

Lemma leaves_cat x k : forall h,
  incl (leaves h (cat x k)) (leaves h x ++ match ends h x with Some (Some h) => leaves h k | _ => [] end).
Proof.
  induction x as [| |a x IH|y IHy z IHz x IH|y IHy x IH]; intros h; cbn [cat ends leaves]; try apply incl_refl.
  - apply IH.
  - intros s Hs. rewrite !in_app_iff in *. destruct Hs as [Hs|[Hs|Hs]]; auto.
    destruct (both (ends h y) (ends h z)) as [[h1|]|]; auto.
    apply IH in Hs. rewrite in_app_iff in Hs. tauto.
  - intros s Hs. rewrite !in_app_iff in *. destruct Hs as [Hs|Hs]; auto.
    destruct (both (Some (Some h)) (ends h y)) as [[h1|]|]; auto.
    apply IH in Hs. rewrite in_app_iff in Hs. tauto.
Qed.
Lemma at_end_cat x k h : incl (at_end h (cat x k))
  (leaves h x ++ match ends h x with Some (Some h) => at_end h k | _ => [] end).
Proof.
  intros s Hs. unfold at_end in Hs. rewrite in_app_iff in *. destruct Hs as [Hs|Hs].
  - apply leaves_cat in Hs. rewrite in_app_iff in Hs. destruct Hs as [Hs|Hs]; [auto|right].
    destruct (ends h x) as [[h1|]|]; auto. unfold at_end. apply in_app_iff. auto.
  - rewrite ends_cat in Hs. right. destruct (ends h x) as [[h1|]|]; auto. unfold at_end. apply in_app_iff. auto.
Qed.

Definition goes (x : held * code) : Prop := thread_ok x /\ incl (at_end (fst x) (snd x)) ([] :: all_ends).
Definition all_go (s : mem) : Prop := forall t x, nth_error (me_th s) t = Some x -> goes x.

Lemma goes_or h x y k : goes (h, Or x y k) -> goes (h, cat x k) /\ goes (h, cat y k).
Proof.
  intros [T G]. pose proof (ok_or h x y k T) as [T1 T2]. destruct T as [H1 _].
  cbn [fst snd ends] in *. destruct (both (ends h x) (ends h y)) as [r|] eqn:E; [|congruence].
  assert (Q : forall z, (ends h z = Some None \/ ends h z = Some r) -> incl (leaves h z) (leaves h x ++ leaves h y) ->
    incl (at_end h (cat z k)) ([] :: all_ends)).
  { intros z Hz Hi s Hs. apply at_end_cat in Hs. apply G. unfold at_end. cbn [leaves ends]. rewrite E.
    rewrite !in_app_iff in *. destruct Hs as [Hs|Hs].
    - apply Hi in Hs. apply in_app_iff in Hs. tauto.
    - destruct Hz as [Hz|Hz]; rewrite Hz in Hs; [contradiction|]. destruct r as [h1|]; [|contradiction].
      unfold at_end in Hs. apply in_app_iff in Hs. tauto. }
  apply both_left in E as [Ex Ey].
  split; (split; [assumption|]); cbn [fst snd]; apply Q; try assumption; intros s Hs; apply in_app_iff; auto.
Qed.
Lemma goes_many h x k : goes (h, Many x k) -> goes (h, cat x (Many x k)) /\ goes (h, k).
Proof.
  intros [T G]. pose proof (ok_many h x k T) as [T1 T2]. destruct T as [H1 _]. cbn [fst snd] in *.
  pose proof G as G'. unfold at_end in G. cbn [leaves ends] in H1, G.
  destruct (both (Some (Some h)) (ends h x)) as [r|] eqn:E; [|congruence].
  apply both_same in E as [-> Ex]. split; (split; [assumption|]); cbn [fst snd].
  - intros s Hs. apply at_end_cat in Hs. apply in_app_iff in Hs as [Hs|Hs].
    + apply G. rewrite !in_app_iff. auto.
    + destruct Ex as [Ex|Ex]; rewrite Ex in Hs; [contradiction|]. apply G'. exact Hs.
  - intros s Hs. apply G. unfold at_end in Hs. rewrite !in_app_iff in *. tauto.
Qed.

Lemma nth_put_go s s1 t y x : me_th s1 = me_th s -> all_go s -> nth_error (me_th s) t = Some y -> goes x -> all_go (put t x s1).
Proof.
  intros Es A E K. assert (L : t < length (me_th s)) by (apply nth_error_Some; congruence).
  intros i z. cbn [put me_th]. rewrite Es, nth_put by exact L.
  destruct (Nat.eqb_spec i t); [intros [= <-]; exact K|apply A].
Qed.
Lemma effect_th t a s s1 : effect t a s = Some s1 -> me_th s1 = me_th s.
Proof.
  destruct a as [l m|l|p|p|b| |b]; cbn [effect].
  - destruct (existsb _ _); [discriminate|]. intros [= <-]. reflexivity.
  - intros [= <-]. reflexivity.
  - intros [= <-]. reflexivity.
  - destruct p; intros [= <-]; reflexivity.
  - destruct (eqb _ _); [|discriminate]. intros [= <-]. reflexivity.
  - intros [= <-]. reflexivity.
  - destruct (eqb _ _); [|discriminate]. intros [= <-]. reflexivity.
Qed.
Lemma all_go_step s t ch s' : all_go s -> astep t ch s = Some s' -> all_go s'.
Proof.
  intros A. unfold astep. destruct (nth_error (me_th s) t) as [[h c]|] eqn:E; [|discriminate].
  pose proof (A t _ E) as K. pose proof (fun x => nth_put_go s s t _ x eq_refl A E) as P.
  destruct c as [| |a k|x y k|x k]; destruct ch as [n| | |]; try discriminate.
  - destruct h; [|discriminate]. destruct (nth_error calls n) as [c|] eqn:C; [|discriminate]. intros [= <-].
    apply P. split; [exact (ok_call n c C)|]. cbn [fst snd]. intros s' Hs. right. apply in_flat_map.
    exists c. split; [exact (nth_error_In _ _ C)|exact Hs].
  - intros [= <-]. apply P. split; [exact (ok_return h (proj1 K))|]. cbn [fst snd]. intros s' [<-|[]].
    apply (proj2 K). cbn. auto.
  - destruct (effect t a s) as [s1|] eqn:F; [|discriminate]. intros [= <-].
    apply (nth_put_go s s1 t _ _ (effect_th _ _ _ _ F) A E). split; [exact (proj2 (ok_do _ _ _ (proj1 K)))|].
    exact (proj2 K).
  - intros [= <-]. apply P. exact (proj1 (goes_or h x y k K)).
  - intros [= <-]. apply P. exact (proj2 (goes_or h x y k K)).
  - intros [= <-]. apply P. exact (proj1 (goes_many h x k K)).
  - intros [= <-]. apply P. exact (proj2 (goes_many h x k K)).
Qed.
Lemma reached_go n s : reached n s -> all_go s.
Proof.
  induction 1 as [|s t ch s' _ IH E]; [|exact (all_go_step s t ch s' IH E)].
  intros t x H. apply nth_error_In in H. apply repeat_spec in H. subst x.
  split; [split; cbn [fst snd ends sites]; [discriminate|intros s []]|].
  cbn. intros s [<-|[]]. left. reflexivity.
Qed.

(** Only close() keeps anything. *)
Lemma ends_given_back :
  forallb (fun h => match h with [] => true | _ => existsb (fun l => lock_eqb (fst l) LA && mode_eqb (snd l) Ex) h
    && forallb (fun l => negb (is_mutex (fst l))) h end) all_ends = true.
Proof. vm_compute. reflexivity. Qed.
Lemma given_back n s t h : reached n s -> nth_error (me_th s) t = Some (h, End) ->
  h = [] \/ In (LA, Ex) h /\ forall l m, In (l, m) h -> is_mutex l = false.
Proof.
  intros R E. destruct (reached_go n s R t _ E) as [_ G]. cbn [fst snd] in G.
  assert (Q : In h ([] :: all_ends)) by (apply G; cbn; auto). destruct Q as [<-|Q]; [auto|].
  pose proof ends_given_back as X. rewrite forallb_forall in X. specialize (X h Q).
  destruct h as [|y h]; [auto|]. right. apply andb_prop in X as [X1 X2]. split.
  - apply existsb_exists in X1 as ([l m] & Hi & X1). apply andb_prop in X1 as [X1 X3].
    apply lock_eqb_eq in X1. cbn [fst snd] in *. subst l. destruct m; [discriminate|exact Hi].
  - intros l m Hi. rewrite forallb_forall in X2. specialize (X2 _ Hi). cbn [fst] in X2.
    destruct (is_mutex l); [discriminate|reflexivity].
Qed.

(** The mutex of the context is locked and held alone. *)
Definition alone_ok (x : held * act) : bool :=
  match snd x with
  | Acq LC _ => forallb (fun y => negb (is_mutex (fst y))) (fst x)
  | Acq l _ => negb (is_mutex l) || forallb (fun y => negb (lock_eqb (fst y) LC)) (fst x)
  | _ => true
  end.
Lemma sites_alone : forallb alone_ok all_sites = true.
Proof. vm_compute. reflexivity. Qed.
Lemma context_alone n s t h l m k : reached n s -> nth_error (me_th s) t = Some (h, Do (Acq l m) k) ->
  forall l' m', In (l', m') h -> lock_eqb l LC = true -> is_mutex l' = false.
Proof.
  intros R E l' m' Hi Hl. destruct (ok_do _ _ _ (mo_th s (reached_ok n s R) t _ E)) as [S _].
  pose proof sites_alone as X. rewrite forallb_forall in X. specialize (X _ S). unfold alone_ok in X. cbn [fst snd] in X.
  apply lock_eqb_eq in Hl. subst l. rewrite forallb_forall in X. specialize (X _ Hi). cbn [fst] in X.
  destruct (is_mutex l'); [discriminate|reflexivity].
Qed.
