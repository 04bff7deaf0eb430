(** Specification of the progress display. *)
From Verif Require Import Model.Bytes Model.Visit Model.ToolProgress.

(** What the clock shows does not go back, starting with [from]. *)
Fixpoint forward (from : N) (ts : list N) : Prop :=
  match ts with
  | [] => True
  | t :: ts => from <= t /\ forward t ts
  end.

(** Lines of output after a line with [amount] at [elapsed] (or after the start, with 0 and 0).  Each shows an amount
    that is not less than the one before and does not exceed the total; how much it grew; the time since
    the start; the time since the line before, at least 60 seconds (30 for the first line); and
    the time that the rest takes at the rate so far, rounded down. *)
Fixpoint lines_ok (total amount elapsed : N) (l : list shown) : Prop :=
  match l with
  | [] => True
  | x :: l' =>
    sh_total x = total /\ amount <= sh_amount x <= total /\ 0 < sh_amount x /\
    amount + sh_more x = sh_amount x /\
    elapsed + sh_since x = sh_elapsed x /\
    (if amount =? 0 then 30 else 60) * second <= sh_since x /\
    sh_remain x = (total - sh_amount x) * sh_elapsed x / sh_amount x /\
    lines_ok total (sh_amount x) (sh_elapsed x) l'
  end.

(** The calls of the progress function among the calls of visit(). *)
Fixpoint amounts (l : list vcall) : list (N * N) :=
  match l with
  | [] => []
  | VItem _ _ :: l => amounts l
  | VProgress x y :: l => (x, y) :: amounts l
  end.
