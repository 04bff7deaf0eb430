(** The command line tool: tools/nudb.cpp, and the functions it uses to show numbers:
    include/nudb/_experimental/util.hpp. *)
From Coq Require Import String Ascii DecimalString.
From Verif Require Import Model.Bytes Model.Err Model.Field Model.Format Model.IO Model.BulkIO Model.Bucket
  Model.Recover Model.Create Model.Rekey Model.Visit Model.Verify.
Local Open Scope string_scope.
Local Open Scope list_scope.
Local Open Scope N_scope.

(** ** Numbers *)

(** One step S(k) of log2(): include/nudb/_experimental/util.hpp:26-34.  The state is [i] and [n]. *)
Definition log2_step (k : N) (st : Z * N) : Z * N :=
  let '(i, n) := st in
  if 2 ^ k <=? n then ((i + Z.of_N k)%Z, n / 2 ^ k) else (i, n).

(** log2(): include/nudb/_experimental/util.hpp:20-37. *)
Definition tool_log2 (n : N) : Z :=
  let i := if n =? 0 then (-1)%Z else 0%Z in
  fst (log2_step 1 (log2_step 2 (log2_step 4 (log2_step 8 (log2_step 16 (log2_step 32 (i, n))))))).

(** std::to_string() of an unsigned number, as a list of characters. *)
Definition to_string (n : N) : list ascii := list_ascii_of_string (NilZero.string_of_uint (N.to_uint n)).

(** The loop of fdec(), over the reversed digits: include/nudb/_experimental/util.hpp:48-58.  [n] counts
    the digits since the last comma, [s2] is what has been put together. *)
Fixpoint fdec_loop (s : list ascii) (n : nat) (s2 : list ascii) : list ascii :=
  match s with
  | [] => s2
  | c :: s' =>
    let '(n, s2) := if Nat.eqb n 3 then (0%nat, ","%char :: s2) else (n, s2) in
    fdec_loop s' (S n) (c :: s2)
  end.

(** fdec(): include/nudb/_experimental/util.hpp:39-60. *)
Definition fdec (n : N) : list ascii := fdec_loop (rev (to_string n)) 0 [].

(** A character of "0123456789abcdef": include/nudb/_experimental/util.hpp:70. *)
Definition hex_digit (d : N) : ascii :=
  nth (N.to_nat d) (list_ascii_of_string "0123456789abcdef") "?"%char.

(** The loop of fhex(): include/nudb/_experimental/util.hpp:68-70.  It writes backwards from the end of the
    string; [left] are the characters not yet overwritten, the last one first.  [None] is a write
    before the beginning of the string.  [fuel] is the number of characters. *)
Fixpoint fhex_loop (fuel : nat) (v : N) (left done : list ascii) : option (list ascii) :=
  if v =? 0 then Some (rev left ++ done)
  else
    match fuel, left with
    | S fuel', _ :: left' => fhex_loop fuel' (v / 16) left' (hex_digit (v mod 16) :: done)
    | _, _ => None
    end.

(** fhex(): include/nudb/_experimental/util.hpp:62-72. *)
Definition fhex (v : N) : option (list ascii) :=
  let s := list_ascii_of_string "0x0000000000000000" in
  fhex_loop (length s) v (rev s) [].

(** The first loop of fhist(): include/nudb/_experimental/util.hpp:80-83. *)
Fixpoint fhist_last (n : nat) (hist : list N) : nat :=
  match n with
  | O => O
  | S n' => if nth n hist 0 =? 0 then fhist_last n' hist else n
  end.

(** fhist(): include/nudb/_experimental/util.hpp:74-88, as the list of what stands between the commas. *)
Definition fhist (hist : list N) : list (list ascii) :=
  let n := fhist_last (length hist - 1) hist in
  map (fun i => to_string (nth i hist 0)) (seq 0 (S n)).

(** ** Commands *)

(** What the command line gives: the paths of the files are those of the three files of [world]. *)
Record options := Options {
  o_dat : bool; o_key : bool; o_log : bool; o_count : option N; o_buffer : option N }.

(** What the tool prints, as far as it is modelled: a refusal of the command line with its reason
    (error(), tools/nudb.cpp:203-210), an error of the library, a number with its label, the
    histogram, the report of verify(), a file that is too small or of unknown type, and headers. *)
Inductive line :=
| LUsage (why : string)
| LError (cmd : string) (er : err)
| LNumber (label : string) (digits : list ascii)
| LSizes (l : list (list ascii))
| LVerified (v : vinfo)
| LSmall (f : fname)
| LUnknown (f : fname) (type : bytes)
| LDat (f : fname) (size : list ascii) (h : dat_header)
| LKey (f : fname) (size : list ascii) (h : key_header)
| LLog (f : fname) (size : list ascii) (h : log_header).

(** Exit status (true is EXIT_SUCCESS), standard output and standard error.  A failed assertion, an
    exception (caught at tools/nudb.cpp:264-267) and undefined behaviour in the library are
    errors here; the process then fails or is aborted. *)
Record answer := Answer { t_ok : bool; t_out : list line; t_err : list line }.
Definition refuse (why : string) : prog answer := Ret (Answer false [] [LUsage why]).

(** The histogram of do_visit: tools/nudb.cpp:477-488.  [None] is an index out of range. *)
Fixpoint bump (n : nat) (l : list N) : option (list N) :=
  match l with
  | [] => None
  | x :: l' => match n with O => Some (x + 1 :: l') | S n' => option_map (cons x) (bump n' l') end
  end.
Definition count_size (hist : option (list N)) (c : vcall) : option (list N) :=
  match hist, c with
  | Some h, VItem _ v =>
    let i := tool_log2 (blen v) in if (i <? 0)%Z then None else bump (Z.to_nat i) h
  | _, _ => hist
  end.
Definition is_item (c : vcall) : bool := match c with VItem _ _ => true | _ => false end.

(** do_visit(): tools/nudb.cpp:444-501.  The output of class progress is left out (Model/ToolProgress.v).
    A failure of the first part is reported on standard output. *)
Definition tool_visit (o : options) : prog answer :=
  if negb (o_dat o) then refuse "Missing dat path"
  else
  bind (p_open FDat ;;;
        fileSize <- p_size FDat ;;
        h <- read_dat_header ;;
        pret (fileSize, h)) (fun a =>
  match a with
  | Er er => Ret (Answer false [LError "" er] [])
  | Ok (fileSize, h) =>
    let head := LDat FDat (fdec fileSize) h in
    bind (visit (fun _ _ _ => None)) (fun a =>
    match a with
    | Er er => Ret (Answer false [head] [LError "visit" er])
    | Ok (calls, Er er) => Ret (Answer false [head] [LError "visit" er])
    | Ok (calls, Ok _) =>
      match fold_left count_size calls (Some (repeat 0 64)) with
      | None => Ret (Answer false [head] [LError "visit" EUB])
      | Some hist =>
        Ret (Answer true [head; LNumber "value_count" (fdec (blen (filter is_item calls))); LSizes (fhist hist)] [])
      end
    end)
  end).

(** Division of a number below 2^64 by a number that is exactly representable, [num / (a / b)] in single
    precision, rounded to nearest, ties to even. *)
Definition round_even (a b : N) : N :=
  let q := a / b in
  let r := a mod b in
  if 2 * r <? b then q else if b <? 2 * r then q + 1 else if N.even q then q else q + 1.

(** A whole number as a float: 24 bits. *)
Definition to_float (n : N) : N :=
  let k := N.log2 n - 23 in round_even n (2 ^ k) * 2 ^ k.

(** ceil(a / b) where the quotient is rounded to 24 bits. *)
Definition ceil_div_float (a b : N) : N :=
  if a =? 0 then 0
  else if a <? b then 1
  else
    let x := N.log2 (a / b) in
    if x <=? 23 then
      let s := 2 ^ (23 - x) in (round_even (a * s) b + (s - 1)) / s
    else
      let s := 2 ^ (x - 23) in round_even a (b * s) * s.

(** The number of buckets rekey() chooses for [itemCount], a block size of 4096 and a load factor of 0.5f:
    include/nudb/impl/rekey.ipp:86-88.  The capacity of a bucket is 227, and 227 * 0.5f is exact. *)
Definition tool_buckets (itemCount : N) : N := ceil_div_float (2 * to_float itemCount) 227.

(** do_rekey(): tools/nudb.cpp:376-405.  [salt] is the result of make_salt().  block_size() is 4096
    (include/nudb/file.hpp:25-32).  That [vm["count"]] is stored as uint64_t and read as size_t is a
    failure on platforms where these types differ; here they are the same. *)
Definition tool_rekey_args (salt count buffer : N) : rekey_args :=
  RekeyArgs salt 4096 (FVal 1 2) (Some (tool_buckets count)) buffer.
Definition tool_rekey (e : env) (salt : N) (o : options) : prog answer :=
  if negb (o_dat o) then refuse "Missing data file path"
  else if negb (o_key o) then refuse "Missing key file path"
  else if negb (o_log o) then refuse "Missing log file path"
  else
  match o_count o, o_buffer o with
  | None, _ => refuse "Missing item count"
  | _, None => refuse "Missing buffer size"
  | Some count, Some buffer =>
    bind (rekey e (tool_rekey_args salt count buffer)) (fun a =>
    match a with
    | Er er => Ret (Answer false [] [LError "rekey" er])
    | Ok _ => Ret (Answer true [] [])
    end)
  end.

(** do_recover(): tools/nudb.cpp:357-374. *)
Definition tool_recover (e : env) (o : options) : prog answer :=
  if negb (o_dat o) || negb (o_key o) || negb (o_log o) then refuse "Missing file specifications"
  else
  bind (recover e) (fun a =>
  match a with
  | Er er => Ret (Answer false [] [LError "recover" er])
  | Ok _ => Ret (Answer true [] [])
  end).

(** do_verify(): tools/nudb.cpp:407-442. *)
Definition tool_verify (e : env) (o : options) : prog answer :=
  if negb (o_dat o) then refuse "Missing data file path"
  else if negb (o_key o) then refuse "Missing key file path"
  else
  bind (verify e (match o_buffer o with Some b => b | None => 0 end)) (fun a =>
  match a with
  | Er er => Ret (Answer false [] [LError "verify" er])
  | Ok v => Ret (Answer true [LVerified v] [])
  end).

(** do_info() of one file: tools/nudb.cpp:285-355.  The headers are read with read() of
    include/nudb/detail/format.hpp:280-290, 355-368, 426-436. *)
Definition info_file (f : fname) : prog line :=
  bind (p_open f ;;;
        size <- p_size f ;;
        if size <? 8 then pret (LSmall f)
        else
        type <- p_read f 0 8 ;;
        if beq type magic_dat then b <- p_read f 0 dat_hdr_size ;; pret (LDat f (fdec size) (dec_dat_header b))
        else if beq type magic_key then b <- p_read f 0 key_hdr_size ;; n <- p_size f ;;
          pret (LKey f (fdec size) (dec_key_header b n))
        else if beq type magic_log then b <- p_read f 0 log_hdr_size ;; pret (LLog f (fdec size) (dec_log_header b))
        else pret (LUnknown f type)) (fun a =>
  match a with
  | Er er => Ret (LError "" er)
  | Ok l => Ret l
  end).

Definition given (b : bool) (f : fname) : prog (list line) :=
  if b then bind (info_file f) (fun l => Ret [l]) else Ret [].

(** do_info(): tools/nudb.cpp:271-283. *)
Definition tool_info (o : options) : prog answer :=
  if negb (o_dat o) && negb (o_key o) && negb (o_log o) then refuse "No files specified"
  else
  bind (given (o_dat o) FDat) (fun a =>
  bind (given (o_key o) FKey) (fun b =>
  bind (given (o_log o) FLog) (fun c => Ret (Answer true (a ++ b ++ c) [])))).

(** operator(): tools/nudb.cpp:212-268, after the command line has been parsed by Boost.Program_options.
    The text of help() is left out. *)
Definition tool (e : env) (salt : N) (cmd : string) (o : options) : prog answer :=
  if String.eqb cmd "help" then Ret (Answer true [] [])
  else if String.eqb cmd "info" then tool_info o
  else if String.eqb cmd "recover" then tool_recover e o
  else if String.eqb cmd "rekey" then tool_rekey e salt o
  else if String.eqb cmd "verify" then tool_verify e o
  else if String.eqb cmd "visit" then tool_visit o
  else refuse "Unknown command".
