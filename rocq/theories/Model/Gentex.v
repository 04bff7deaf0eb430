(** gentex and genlock, include/nudb/detail/gentex.hpp, with the mutex and the condition
    variable inside. *)
From Verif Require Import Model.Bytes SpecGen.

(** include/nudb/detail/gentex.hpp:27-29.  gen_ is a 64 bit number that wraps around; cur_ and
    prev_ have no upper bound here, since there are fewer than 2^64 threads, but wrap around
    below zero. *)
Record gcnt := Gcnt { gn_gen : N; gn_cur : N; gn_prev : N }.

Definition dec64 (n : N) : N := if n =? 0 then 2 ^ 64 - 1 else n - 1.

(** start(), include/nudb/detail/gentex.hpp:53-59. *)
Definition gx_start (g : gcnt) : gcnt := Gcnt ((gn_gen g + 1) mod 2 ^ 64) 0 (gn_prev g + gn_cur g).
(** lock_gen(), 74-80. *)
Definition gx_lock (g : gcnt) : N * gcnt := (gn_gen g, Gcnt (gn_gen g) (gn_cur g + 1) (gn_prev g)).
(** unlock_gen(), 85-98; and whether it calls notify_all(). *)
Definition gx_unlock (g : gcnt) (gen : N) : gcnt * bool :=
  if gen =? gn_gen g then (Gcnt (gn_gen g) (dec64 (gn_cur g)) (gn_prev g), false)
  else let p := dec64 (gn_prev g) in (Gcnt (gn_gen g) (gn_cur g) p, p =? 0).

(** A thread does nothing with the gentex, holds a lock of generation [g], is about to test
    prev_ in finish(), or has called cond_.wait() there and not been woken. *)
Inductive gth := GIdle | GHolds (g : N) | GTest | GWait.
Record gst := Gst { gs_g : gcnt; gs_th : N -> gth }.

Definition gset (f : N -> gth) (t : N) (s : gth) : N -> gth := fun u => if u =? t then s else f u.
(** cond_.notify_all(). *)
Definition wake (f : N -> gth) : N -> gth := fun u => match f u with GWait => GTest | s => s end.

(** Transitions.  All functions lock m_ for as long as they run, except while cond_.wait()
    waits, so each is one transition: include/nudb/detail/gentex.hpp:55, 66, 76-77, 87.
    finish(), 64-69, tests prev_ when it is called and whenever it is woken, for no reason
    too; start() and finish() can be called by any thread at any time. *)
Inductive gstep : gst -> list gev -> gst -> Prop :=
| gt_lock g f t : f t = GIdle ->
    gstep (Gst g f) [ELock t] (Gst (snd (gx_lock g)) (gset f t (GHolds (fst (gx_lock g)))))
| gt_unlock g f t n : f t = GHolds n ->
    gstep (Gst g f) [EUnlock t]
      (Gst (fst (gx_unlock g n)) (gset (if snd (gx_unlock g n) then wake f else f) t GIdle))
| gt_start g f t : f t = GIdle -> gstep (Gst g f) [EStart t] (Gst (gx_start g) f)
| gt_finish g f t : f t = GIdle -> gstep (Gst g f) [] (Gst g (gset f t GTest))
| gt_returns g f t : f t = GTest -> gn_prev g = 0 -> gstep (Gst g f) [EFinish t] (Gst g (gset f t GIdle))
| gt_waits g f t : f t = GTest -> 0 < gn_prev g -> gstep (Gst g f) [] (Gst g (gset f t GWait))
| gt_wakes g f t : f t = GWait -> gstep (Gst g f) [] (Gst g (gset f t GTest)).

Inductive gexec : list gev -> gst -> Prop :=
| gx_nil : gexec [] (Gst (Gcnt 0 0 0) (fun _ => GIdle))
| gx_step h x h' y : gexec h x -> gstep x h' y -> gexec (h ++ h') y.

(** ** genlock *)
(** A genlock of the gentex: owned_, whether g_ is not null, and gen_, which is not
    initialized before lock() has been called: include/nudb/detail/gentex.hpp:108-110. *)
Record glk := Glk { lk_owned : bool; lk_g : bool; lk_gen : option N }.

(** The result of an operation on genlocks: the state, or undefined behaviour (the value of
    gen_ is used without having been set), or a failed assertion. *)
Inductive lres := LOk (g : gcnt) (f : N -> option glk) | LUndef | LAssert.
Definition lput (f : N -> option glk) (i : N) (o : option glk) : N -> option glk := fun u => if u =? i then o else f u.

(** owns_lock(), 136-140. *)
Definition lk_owns (l : glk) : bool := lk_g l && lk_owned l.
(** lock(), 213-221. *)
Definition lk_lock (g : gcnt) (f : N -> option glk) (i : N) (l : glk) : lres :=
  if negb (lk_g l) || lk_owned l then LAssert
  else LOk (snd (gx_lock g)) (lput f i (Some (Glk true true (Some (fst (gx_lock g)))))).
(** unlock(), 226-234. *)
Definition lk_unlock (g : gcnt) (f : N -> option glk) (i : N) (l : glk) : lres :=
  if negb (lk_g l) || negb (lk_owned l) then LAssert
  else match lk_gen l with
       | None => LUndef
       | Some n => LOk (fst (gx_unlock g n)) (lput f i (Some (Glk false true (Some n))))
       end.

(** Operations: a genlock is constructed locked, 189-193, or not, 197-200; lock(), unlock();
    the destructor, 204-208; a genlock is constructed from another, 165-171, assigned from
    another, 176-185; swap, 249-254; release(), 239-245.  And start() of the gentex. *)
Inductive lop :=
  LNew (i : N) | LDefer (i : N) | LLock (i : N) | LUnlock (i : N) | LDestroy (i : N)
| LMoveNew (i j : N) | LMove (i j : N) | LSwap (i j : N) | LRelease (i : N) | LStart.

(** gen_ is neither copied by the move constructor and assignment nor swapped. *)
Definition ldo (o : lop) (g : gcnt) (f : N -> option glk) : option lres :=
  match o with
  | LNew i => match f i with None => Some (lk_lock g f i (Glk false true None)) | _ => None end
  | LDefer i => match f i with None => Some (LOk g (lput f i (Some (Glk false true None)))) | _ => None end
  | LLock i => match f i with Some l => Some (lk_lock g f i l) | None => None end
  | LUnlock i => match f i with Some l => Some (lk_unlock g f i l) | None => None end
  | LDestroy i =>
    match f i with
    | Some l =>
      Some (if lk_owns l then
              match lk_unlock g f i l with LOk g' f' => LOk g' (lput f' i None) | r => r end
            else LOk g (lput f i None))
    | None => None
    end
  | LMoveNew i j =>
    match f i, f j with
    | None, Some l =>
      Some (LOk g (lput (lput f i (Some (Glk (lk_owned l) (lk_g l) None))) j (Some (Glk false false (lk_gen l)))))
    | _, _ => None
    end
  | LMove i j =>
    match f i, f j with
    | Some d, Some l =>
      match (if lk_owns d then lk_unlock g f i d else LOk g f) with
      | LOk g' f' =>
        match f' i, f' j with
        | Some d', Some l' =>
          let f1 := lput f' i (Some (Glk (lk_owned l') (lk_g l') (lk_gen d'))) in
          Some (LOk g' (lput f1 j (match f1 j with Some l1 => Some (Glk false false (lk_gen l1)) | None => None end)))
        | _, _ => None
        end
      | r => Some r
      end
    | _, _ => None
    end
  | LSwap i j =>
    match f i, f j with
    | Some a, Some b =>
      Some (LOk g (lput (lput f i (Some (Glk (lk_owned b) (lk_g b) (lk_gen a)))) j
                     (Some (Glk (lk_owned a) (lk_g a) (lk_gen (if i =? j then a else b))))))
    | _, _ => None
    end
  | LStart => Some (LOk (gx_start g) f)
  | LRelease i => match f i with Some l => Some (LOk g (lput f i (Some (Glk (lk_owned l) false (lk_gen l))))) | None => None end
  end.

(** A sequence of operations, starting without genlocks; [None] when the sequence makes no
    sense (an operation on a genlock that does not exist). *)
Fixpoint ldos (l : list lop) (g : gcnt) (f : N -> option glk) : option lres :=
  match l with
  | [] => Some (LOk g f)
  | o :: l' => match ldo o g f with Some (LOk g' f') => ldos l' g' f' | r => r end
  end.
Definition genlocks (l : list lop) : option lres := ldos l (Gcnt 0 0 0) (fun _ => None).

(** For statements about them. *)
(** Operations that do not hand a lock over to another genlock. *)
Definition stays (o : lop) : bool :=
  match o with LMoveNew _ _ | LMove _ _ | LSwap _ _ | LRelease _ => false | _ => true end.
Definition lstart (o : lop) : bool := match o with LStart => true | _ => false end.
Definition starts (l : list lop) : N := blen (filter lstart l).
Definition owns_in (f : N -> option glk) (i : N) : Prop := exists l, f i = Some l /\ lk_owns l = true.
(** Operations as the store uses them, include/nudb/impl/basic_store.ipp:255, 315, 700. *)
Definition scoped (o : lop) : bool := match o with LNew _ | LDestroy _ | LStart => true | _ => false end.
