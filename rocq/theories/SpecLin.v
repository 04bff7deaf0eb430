(** Linearizability: what answers several threads may get that share one insert-only map.
    Nothing here depends on the model of NuDB. *)
From Verif Require Import Model.Bytes Spec.

(** What is seen of an execution: thread [t] makes a call, thread [t] gets the answer. *)
Inductive hev := HCall (t : N) (c : op) | HRet (t : N) (o : out).

(** A thread that shares the map: it makes no call, it has made a call that has not taken
    effect, or its call has taken effect and the answer is known. *)
Inductive lst := LIdle | LPending (c : op) | LDone (o : out).

Definition lset (f : N -> lst) (t : N) (s : lst) : N -> lst := fun u => if u =? t then s else f u.

(** Executions in which every call takes effect in one instant between being made and
    being answered. *)
Inductive atomic : smap -> (N -> lst) -> list hev -> smap -> (N -> lst) -> Prop :=
| at_nil m f : atomic m f [] m f
| at_call m f t c h m' f' :
    f t = LIdle -> atomic m (lset f t (LPending c)) h m' f' -> atomic m f (HCall t c :: h) m' f'
| at_effect m f t c h m' f' :
    f t = LPending c ->
    atomic (fst (spec_step m c)) (lset f t (LDone (snd (spec_step m c)))) h m' f' ->
    atomic m f h m' f'
| at_ret m f t o h m' f' :
    f t = LDone o -> atomic m (lset f t LIdle) h m' f' -> atomic m f (HRet t o :: h) m' f'.

(** The history [h] can be explained that way, starting with the map [m]; [m'] are possible
    contents of the map at its end. *)
Definition linearizes (m : smap) (h : list hev) (m' : smap) : Prop :=
  exists f', atomic m (fun _ => LIdle) h m' f'.
Definition linearizable (m : smap) (h : list hev) : Prop := exists m', linearizes m h m'.

(** The calls made in a history. *)
Fixpoint calls (h : list hev) : list op :=
  match h with [] => [] | HCall _ c :: h' => c :: calls h' | HRet _ _ :: h' => calls h' end.
