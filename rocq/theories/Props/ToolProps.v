(** C76, C77, C78: the command-line tool. *)
From Coq Require Import String Ascii.
From Verif Require Import Model.Bytes Model.Err Model.Field Model.Format Model.IO Model.BulkIO Model.Bucket Model.Pool
  Model.Recover Model.Create Model.Store Model.History Model.Crash Model.Events Model.Visit Model.Rekey Model.RekeyLife
  Model.Verify Model.Tool Spec SpecFormat SpecVisit SpecTool Proofs.BytesFacts Proofs.IOFacts Proofs.ToolFacts Proofs.ToolRun
  Props.Samples.
Local Open Scope string_scope.
Local Open Scope list_scope.
Local Open Scope N_scope.

(** ** C76 *)

(** [W] are the pairs that were written to the data file [d], in order, by any past [l].  "nudb visit" of
    the data file (without the log file, as after close()) exits with success and shows the size of the
    file, its header, the number of pairs and a histogram of the sizes of the values.  If there
    is at least one pair, "nudb rekey" of the data file with that count exits with success, and
    open() and fetch() then find every saved pair, and no others.  (Or rekey() aborts because the data
    file comes near its limit.) *)
Theorem C76_visit_then_rekey_partial : forall e a l w s d salt buffer,
  iter_ok e -> good_args a -> Forall (valid_op (ca_key_size a)) l -> lived e a l w s -> w_dat w = Some d -> salt < 2 ^ 64 ->
  let W := written sempty [] [] l in
  let closed := World (Some d) (w_key w) None in
  (exists hist, run (tool e salt "visit" (Options true false false None None)) closed =
     (closed, Answer true
        [LDat FDat (fdec (blen d)) (DatHeader magic_dat currentVersion (ca_uid a) (ca_appnum a) (ca_key_size a));
         LNumber "value_count" (fdec (blen W)); LSizes (fhist hist)] []) /\
     length hist = 64%nat /\ forall i, nth i hist 0 = blen (filter (of_size i) W)) /\
  (W <> [] ->
   (exists w1 w2 s2,
      run (tool e salt "rekey" (Options true true true (Some (blen W)) (Some buffer))) (World (Some d) None None)
        = (w1, Answer true [] []) /\
      run (store_open e) w1 = (w2, Ok s2) /\
      forall k, blen k = ca_key_size a -> snd (run (store_fetch e s2 k) w2) =
        match spec_durable sempty sempty l k with Some v => Ok v | None => Er key_not_found end) \/
   (exists w1, run (tool e salt "rekey" (Options true true true (Some (blen W)) (Some buffer))) (World (Some d) None None)
        = (w1, Answer false [] [LError "rekey" EAssert]) /\ near_limit w1)).
Proof. exact visit_then_rekey. Qed.

(** An empty database: visit shows the count 0; rekey with that count exits with success, but the
    database cannot be opened. *)
Definition after_rekey (count : N) (w : world) : option (bool * option err) :=
  let '(w1, a) := run (tool sample_env 5 "rekey" (Options true true true (Some count) (Some 65536))) w in
  Some (t_ok a, match snd (run (store_open sample_env) w1) with Ok _ => None | Er er => Some er end).
Definition data_of (l : list op) : option bytes :=
  match life sample_env sample_args l with (w, Some _, _) => w_dat w | _ => None end.
Lemma data_lived l d : data_of l = Some d -> exists w s, lived sample_env sample_args l w s /\ w_dat w = Some d.
Proof.
  unfold data_of, lived. destruct (life sample_env sample_args l) as [[w [s|]] os]; [|discriminate].
  intros H. exists w, s. split; [exists os; reflexivity|exact H].
Qed.
Definition shows_zero (w : world) : bool :=
  match run (tool sample_env 5 "visit" (Options true false false None None)) w with
  | (_, Answer true [_; LNumber "value_count" ["0"%char]; _] []) => true
  | _ => false
  end.
Theorem C76_empty_refuted : exists w s d er,
  lived sample_env sample_args [] w s /\ w_dat w = Some d /\
  shows_zero (World (Some d) None None) = true /\
  after_rekey 0 (World (Some d) None None) = Some (true, Some er).
Proof.
  destruct (data_of []) as [d|] eqn:E; [|exfalso; revert E; vm_compute; discriminate].
  destruct (data_lived _ _ E) as (w & s & L & Hd). exists w, s, d, invalid_bucket_count.
  split; [exact L|]. split; [exact Hd|].
  assert (X : match data_of [] with Some d => (shows_zero (World (Some d) None None), after_rekey 0 (World (Some d) None None))
    | None => (false, None) end = (true, Some (true, Some invalid_bucket_count))) by (vm_compute; reflexivity).
  rewrite E in X. clear - X. split.
  - exact (f_equal fst X).
  - exact (f_equal snd X).
Qed.

Example C76_case :
  exists w s d, lived sample_env sample_args sample_life w s /\ w_dat w = Some d /\
    blen (written sempty [] [] sample_life) = 31 /\
    after_rekey 31 (World (Some d) None None) = Some (true, None).
Proof.
  destruct (data_of sample_life) as [d|] eqn:E; [|exfalso; revert E; vm_compute; discriminate].
  destruct (data_lived _ _ E) as (w & s & L & Hd). exists w, s, d.
  split; [exact L|]. split; [exact Hd|]. split; [vm_compute; reflexivity|].
  assert (X : match data_of sample_life with Some d => after_rekey 31 (World (Some d) None None) | None => None end
    = Some (true, None)) by (vm_compute; reflexivity).
  rewrite E in X. exact X.
Qed.

(** ** C77 *)

(** "nudb recover", "nudb rekey" and "nudb verify" do to the files what the function of the library does, exit
    with success exactly if that function reports no error, and show its error on standard
    error. *)
Theorem C77_recover : forall e salt o w,
  o_dat o = true /\ o_key o = true /\ o_log o = true ->
  run (tool e salt "recover" o) w =
    (fst (run (recover e) w),
     match snd (run (recover e) w) with Ok _ => Answer true [] [] | Er er => Answer false [] [LError "recover" er] end).
Proof. exact status_recover. Qed.

Theorem C77_rekey : forall e salt o count buffer w,
  o_dat o = true /\ o_key o = true /\ o_log o = true -> o_count o = Some count -> o_buffer o = Some buffer ->
  let x := run (rekey e (RekeyArgs salt 4096 (FVal 1 2) (Some (tool_buckets count)) buffer)) w in
  run (tool e salt "rekey" o) w =
    (fst x, match snd x with Ok _ => Answer true [] [] | Er er => Answer false [] [LError "rekey" er] end).
Proof. exact status_rekey. Qed.

Theorem C77_verify : forall e salt o w, o_dat o = true -> o_key o = true ->
  let x := run (verify e match o_buffer o with Some b => b | None => 0 end) w in
  run (tool e salt "verify" o) w =
    (fst x, match snd x with Ok v => Answer true [LVerified v] [] | Er er => Answer false [] [LError "verify" er] end).
Proof. exact status_verify. Qed.

(** "nudb visit" of any file exits with success if and only if visit() reports success. *)
Theorem C77_visit : forall e salt o w, o_dat o = true ->
  (forall d, w_dat w = Some d -> bytes_ok d /\ blen d < 2 ^ 64) ->
  (t_ok (snd (run (tool e salt "visit" o) w)) = true <->
   exists calls, snd (run (visit (fun _ _ _ => None)) w) = Ok (calls, Ok tt)).
Proof. exact status_visit_iff. Qed.
(** A file that no database has: 92 bytes of header, and 5 bytes of a record. *)
Example C77_visit_case : forall d, d = enc_dat_header (create_dat_header sample_args) ++ [0; 0; 0; 0; 1] ->
  t_ok (snd (run (tool sample_env 5 "visit" (Options true false false None None)) (World (Some d) None None))) = false /\
  t_ok (snd (run (tool sample_env 5 "visit" (Options true false false None None)) (World (Some (firstn 92 d)) None None))) = true.
Proof. intros d ->. vm_compute. auto. Qed.

(** "nudb visit" of a file that does not exist shows the error on standard output only. *)
Theorem C77_visit_stderr_refuted : forall e salt,
  run (tool e salt "visit" (Options true false false None None)) (World None None None) =
    (World None None None, Answer false [LError "" ENoEnt] []).
Proof. reflexivity. Qed.

(** "nudb info" exits with success whatever happens, and shows nothing on standard error. *)
Theorem C77_info_status_refuted : forall e salt o w, o_dat o = true \/ o_key o = true \/ o_log o = true ->
  t_ok (snd (run (tool e salt "info" o) w)) = true /\ t_err (snd (run (tool e salt "info" o) w)) = [].
Proof. exact status_info. Qed.
Example C77_info_case : forall e salt,
  snd (run (tool e salt "info" (Options true true false None None)) (World None (Some [1; 2; 3]) None)) =
    Answer true [LError "" ENoEnt; LSmall FKey] [].
Proof. reflexivity. Qed.

(** Both outcomes of recover occur. *)
Example C77_case :
  (let '(w, _, _) := life sample_env sample_args sample_life in
   t_ok (snd (run (tool sample_env 5 "recover" (Options true true true None None)) (World (w_dat w) (w_key w) None)))) = true /\
  t_ok (snd (run (tool sample_env 5 "recover" (Options true true true None None)) (World None None (Some [1])))) = false /\
  t_ok (snd (run (tool sample_env 5 "verify" (Options true true false None None)) (World None None None))) = false.
Proof. vm_compute. auto. Qed.

(** ** C78 *)

(** "nudb info" of a database with any past shows the sizes of the files, and the headers
    as they were given to create(). *)
Theorem C78_info : forall e a l w s d kf salt,
  iter_ok e -> good_args a -> Forall (valid_op (ca_key_size a)) l -> lived e a l w s ->
  w_dat w = Some d -> w_key w = Some kf ->
  let closed := World (Some d) (Some kf) None in
  exists h, run (tool e salt "info" (Options true true false None None)) closed =
    (closed, Answer true
      [LDat FDat (fdec (blen d)) (DatHeader magic_dat currentVersion (ca_uid a) (ca_appnum a) (ca_key_size a));
       LKey FKey (fdec (blen kf)) h] []) /\
    kh_type h = magic_key /\ kh_version h = currentVersion /\
    kh_uid h = ca_uid a /\ kh_appnum h = ca_appnum a /\ kh_key_size h = ca_key_size a /\
    kh_salt h = ca_salt a /\ kh_pepper h = pepper (e_hasher e) (ca_salt a) /\ kh_block_size h = ca_block_size a /\
    blen kf = (kh_buckets h + 1) * ca_block_size a.
Proof. exact info_shows. Qed.

(** A number is shown in decimal, with a comma after every third digit from the right and none at
    the front. *)
Theorem C78_decimal : forall n,
  decimal (filter not_comma (fdec n)) = Some n /\ placed_commas (rev (fdec n)) /\
  exists c r, fdec n = c :: r /\ c <> ","%char.
Proof. exact fdec_ok. Qed.

(** uid, application number, salt and pepper are shown as "0x" and sixteen hexadecimal digits; nothing is
    written outside the string. *)
Theorem C78_hex : forall v, v < 2 ^ 64 ->
  exists ds, fhex v = Some ("0"%char :: "x"%char :: ds) /\ length ds = 16%nat /\ hex_value ds = Some v.
Proof. exact fhex_ok. Qed.

(** A histogram is shown without its trailing zeros, but not empty. *)
Theorem C78_histogram : forall h, h <> [] -> exists shown m, h = shown ++ repeat 0 m /\ fhist h = map to_string shown /\
  shown <> [] /\ (length shown = 1%nat \/ last shown 0 <> 0).
Proof. exact fhist_ok. Qed.
Theorem C78_plain_decimal : forall n, decimal (to_string n) = Some n.
Proof. exact to_string_number. Qed.

(** log2() is the binary logarithm, rounded down. *)
Theorem C78_log2 : forall n, 0 < n -> n < 2 ^ 64 -> tool_log2 n = Z.of_N (N.log2 n).
Proof. exact tool_log2_ok. Qed.

Example C78_case :
  fdec 1234567 = list_ascii_of_string "1,234,567" /\ fdec 0 = list_ascii_of_string "0" /\
  fdec 999 = list_ascii_of_string "999" /\ fdec 1000 = list_ascii_of_string "1,000" /\
  fhex 48879 = Some (list_ascii_of_string "0x000000000000beef") /\
  fhist [0; 3; 0; 12; 0; 0] = map list_ascii_of_string ["0"; "3"; "0"; "12"] /\ fhist [0; 0] = map list_ascii_of_string ["0"] /\
  tool_log2 1 = 0%Z /\ tool_log2 1023 = 9%Z /\ tool_log2 1024 = 10%Z /\
  (exists w s d kf, lived sample_env sample_args sample_life w s /\ w_dat w = Some d /\ w_key w = Some kf).
Proof.
  repeat (split; [vm_compute; reflexivity|]). destruct sample_lived as (w & s & L & _).
  destruct (w_dat w) as [d|] eqn:D; [destruct (w_key w) as [kf|] eqn:K|].
  - exists w, s, d, kf. split; [exact L|]. split; [exact D|exact K].
  - exfalso. destruct L as [os L].
    assert (X : match fst (fst (life sample_env sample_args sample_life)) with World _ None _ => false | _ => true end = true)
      by (vm_compute; reflexivity).
    rewrite L in X. cbn [fst] in X. destruct w as [d' k' l']. cbn [w_key] in K. subst k'. discriminate X.
  - exfalso. destruct L as [os L].
    assert (X : match fst (fst (life sample_env sample_args sample_life)) with World None _ _ => false | _ => true end = true)
      by (vm_compute; reflexivity).
    rewrite L in X. cbn [fst] in X. destruct w as [d' k' l']. cbn [w_dat] in D. subst d'. discriminate X.
Qed.

Print Assumptions C76_visit_then_rekey_partial.
Print Assumptions C76_empty_refuted.
Print Assumptions C77_recover.
Print Assumptions C77_rekey.
Print Assumptions C77_verify.
Print Assumptions C77_visit.
Print Assumptions C77_visit_stderr_refuted.
Print Assumptions C77_info_status_refuted.
Print Assumptions C78_info.
Print Assumptions C78_decimal.
Print Assumptions C78_hex.
Print Assumptions C78_histogram.
Print Assumptions C78_plain_decimal.
Print Assumptions C78_log2.
