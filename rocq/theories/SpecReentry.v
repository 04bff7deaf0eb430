(** Programs whose callbacks use the store. *)
From Verif Require Import Model.Bytes Model.Reentry.

(** All calls have returned. *)
Definition finished (y : sys) : Prop := Forall (fun t => t_todo t = []) (y_th y).

(** A call whose callbacks call the store only when they are given a value from the files, and
    likewise the callbacks of the calls they make. *)
Fixpoint calm (c : call) : Prop :=
  match c with
  | Fetch _ None | Fetch _ (Some []) => True
  | Fetch InFile (Some l) => fold_right (fun c P => calm c /\ P) True l
  | Fetch _ (Some _) => False
  | Insert _ _ | SetBurst => True
  end.
Definition calm_job (j : job) : Prop := match j with JCall c => calm c | JFlush _ => True end.

(** A call that stores a new key or sets the burst size. *)
Definition changes (c : call) : Prop := match c with Insert InPool _ => False | Insert _ true | SetBurst => True | _ => False end.
