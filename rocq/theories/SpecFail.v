(** An insert-only map shared by several threads, saved from time to time by a flush in the
    background, on a machine that may stop at any moment and whose file operations may fail.
    Nothing here depends on the model of NuDB. *)
From Verif Require Import Model.Bytes Spec SpecLin SpecDurable.

(** What is seen of an execution: what is seen without failures (SpecDurable.v); a file
    operation fails that is made for the call of thread [t]; a flush has failed and will not
    go on. *)
Inductive fev := FDev (v : dev) | FFail (t : N) | FErr.

(** The map, what has been saved, the map at the beginning of the flush that is going on or
    has failed, whether one has failed, and the threads. *)
Record fst_t := FSt { f_map : smap; f_saved : smap; f_flush : option smap; f_bad : bool; f_th : N -> lst }.

(** The call of a thread can still fail: it is not an insert that has taken effect. *)
Definition may_fail (l : lst) : Prop :=
  match l with LPending _ => True | LDone o => o <> OInserted | LIdle => False end.

(** Steps.  Calls take effect in one instant between being made and being answered, or they
    are answered with an error ([OOther]) and have no effect at all; an error is answered only
    - to a call for which a file operation has failed, or
    - after a flush has failed.
    Flushes and stops are as in SpecDurable.v; a flush that has failed has not ended, and
    there is no other until the database is opened again. *)
Inductive fstep : fst_t -> list fev -> fst_t -> Prop :=
| ff_call m d o x f t c :
    f t = LIdle ->
    fstep (FSt m d o x f) [FDev (DEv (HCall t c))] (FSt m d o x (lset f t (LPending c)))
| ff_effect m d o x f t c :
    f t = LPending c ->
    fstep (FSt m d o x f) [] (FSt (fst (spec_step m c)) d o x (lset f t (LDone (snd (spec_step m c)))))
| ff_ret m d o x f t r :
    f t = LDone r ->
    fstep (FSt m d o x f) [FDev (DEv (HRet t r))] (FSt m d o x (lset f t LIdle))
| ff_op_fails m d o x f t :
    may_fail (f t) ->
    fstep (FSt m d o x f) [FFail t] (FSt m d o x (lset f t (LDone OOther)))
| ff_refused m d o f t c :
    f t = LPending c ->
    fstep (FSt m d o true f) [] (FSt m d o true (lset f t (LDone OOther)))
| ff_begin m d f :
    fstep (FSt m d None false f) [FDev DBegin] (FSt m d (Some m) false f)
| ff_end m d m1 f :
    fstep (FSt m d (Some m1) false f) [FDev DEnd] (FSt m m1 None false f)
| ff_flush_fails m d m1 f :
    fstep (FSt m d (Some m1) false f) [FErr] (FSt m d (Some m1) true f)
| ff_lost m d o x f :
    fstep (FSt m d o x f) [FDev DStop] (FSt d d None false (fun _ => LIdle))
| ff_kept m d m1 x f :
    fstep (FSt m d (Some m1) x f) [FDev DStop] (FSt m1 m1 None false (fun _ => LIdle)).

Inductive fruns : fst_t -> list fev -> fst_t -> Prop :=
| fr_nil s : fruns s [] s
| fr_step s h s1 h' s2 : fruns s h s1 -> fstep s1 h' s2 -> fruns s (h ++ h') s2.

(** The history [h] can be explained that way, starting with an empty database. *)
Definition fstart : fst_t := FSt sempty sempty None false (fun _ => LIdle).
Definition safely_linearizable (h : list fev) : Prop := exists s, fruns fstart h s.

(** The calls made in a history. *)
Fixpoint fcalls (h : list fev) : list op :=
  match h with
  | [] => []
  | FDev (DEv (HCall _ c)) :: h' => c :: fcalls h'
  | _ :: h' => fcalls h'
  end.
