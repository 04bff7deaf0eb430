(** The progress display of the tool: class progress, include/nudb/_experimental/util.hpp:215-284, and the
    clock it uses, include/nudb/_experimental/basic_seconds_clock.hpp. *)
From Verif Require Import Model.Bytes Model.Err.

(** Times are counted in nanoseconds, as the duration of std::chrono::steady_clock is with the usual
    libraries. *)
Definition second : N := 1000000000.

(** The members start_, now_, report_, prev_ and estimate_: include/nudb/_experimental/util.hpp:220-224. *)
Record pstate := PState { p_start : N; p_now : N; p_report : N; p_prev : N; p_estimate : bool }.

(** A line of output: include/nudb/_experimental/util.hpp:267-273.  The numbers are in the order of the output; how
    durations are written (pretty_time) is left out. *)
Record shown := Shown {
  sh_remain : N; sh_amount : N; sh_total : N; sh_elapsed : N; sh_more : N; sh_since : N }.

(** operator(): include/nudb/_experimental/util.hpp:233-276.  [t] is what the clock shows; it is read a
    second time at 240, which is taken to give the same.  [None] is the state after construction,
    which leaves prev_ and estimate_ uninitialised (227-231); a call with another amount than 0 is
    then undefined.  [total - amount] and [amount - prev_] are computed in 64 bits without sign.
    The quotient (263-266) is computed exactly here and in double precision in the code; the
    conversion of a quotient of 2^63 or more to a signed number of 64 bits is undefined.  The clock is
    steady. *)
Definition progress_call (st : option pstate) (t amount total : N) : res (option pstate * list shown) :=
  if amount =? 0 then Ok (Some (PState t t t 0 false), [])
  else
  match st with
  | None => Er EUB
  | Some s =>
    if t =? p_now s then Ok (st, [])
    else
    let elapsed := t - p_start s in
    let quiet := Ok (Some (PState (p_start s) t (p_report s) (p_prev s) (p_estimate s)), []) in
    if negb (p_estimate s) && (elapsed <? 30 * second) then quiet
    else if p_estimate s && (t - p_report s <? 60 * second) then quiet
    else
    let remain := ((total + 2 ^ 64 - amount) mod 2 ^ 64) * elapsed / amount in
    if 2 ^ 63 <=? remain then Er EUB
    else Ok (Some (PState (p_start s) t t amount true),
             [Shown remain amount total elapsed ((amount + 2 ^ 64 - p_prev s) mod 2 ^ 64) (t - p_report s)])
  end.

(** A sequence of calls, each with what the clock shows. *)
Fixpoint progress_calls (st : option pstate) (l : list (N * (N * N))) : res (list shown) :=
  match l with
  | [] => Ok []
  | (t, (amount, total)) :: l' =>
    match progress_call st t amount total with
    | Er er => Er er
    | Ok (st', a) => match progress_calls st' l' with Er er => Er er | Ok b => Ok (a ++ b) end
    end
  end.

(** seconds_clock_thread::run(): include/nudb/_experimental/basic_seconds_clock.hpp:84-103.  When the
    thread that has just taken the time [t] will take it again; if this is not later than [t], it
    does so at once. *)
Definition clock_wake (t : N) : N := t / second * second + 900000000.
