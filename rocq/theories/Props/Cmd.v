(** Property C66: the command protocol of the interactive mode (src/CmdHandler.cpp, src/IACmds.proto, src/matlab/qd_*.m). *)
From Coq Require Import Ascii String List NArith ZArith Lia Bool Arith.
From Verif Require Import Base Model.Params Spec.Params Proofs.Params Model.Serial Model.Cmd Spec.Cmd Proofs.Cmd.
Import ListNotations.
Open Scope nat_scope.
Open Scope list_scope.

(** The full statement: whatever the operators, files and programs do short of undefined behaviour of their own, a client
    that follows the protocol gets an answer to each command, no message is left over, and the server is ready for the
    next command or has ended after the answer. *)
Definition C66_full : Prop :=
  forall (op wf data num rest : Type) (E : env op wf data num rest) dir w c ds,
  c_code c <> QUIT -> length ds = needs (c_code c) ->
  exists f, settles (mkCfg (serve E dir w) (talk c ds) [] []) f /\ answered f.

(** Whatever the schedule of the two processes, a conversation ends in the same state. *)
Theorem C66_schedule : forall I O A B (x f g : cfg I O A B), settles x f -> settles x g -> f = g.
Proof. exact settles_unique. Qed.
Print Assumptions C66_schedule.

(** Commands that work are answered as they should, and nothing is left over. *)
Theorem C66_success_partial : forall op wf data num rest (E : env op wf data num rest) dir w c ds a w',
  succeeds E dir w c ds a w' ->
  settles (mkCfg (serve E dir w) (talk c ds) [] []) (mkCfg (Ret (w', false)) (Ret a) [] []).
Proof. exact success. Qed.
Print Assumptions C66_success_partial.

(** So are whole sessions of them, up to QUIT. *)
Theorem C66_session_partial : forall op wf data num rest (E : env op wf data num rest) dir w l al w' n,
  all_succeed E dir w l al w' -> length l < n ->
  settles (mkCfg (interactive E n dir w) (session l) [] []) (mkCfg (Ret (w', true)) (Ret al) [] []).
Proof. exact session_runs. Qed.
Print Assumptions C66_session_partial.

(** These failures are reported once, and the server is ready again or has ended. *)
Theorem C66_failure_partial : forall op wf data num rest (E : env op wf data num rest) dir w c ds m k,
  fails E dir w c ds m k ->
  settles (mkCfg (serve E dir w) (talk c ds) [] [])
          (mkCfg (match k with Some w' => Ret (w', false) | None => Raise end) (Ret (answer_err data num m)) [] []).
Proof. exact failure. Qed.
Print Assumptions C66_failure_partial.

(** A wave function that is read is announced by a response, an operator is not. *)
Theorem C66_streams_code : forall op wf data num rest (E : env op wf data num rest) dir w c d w', succeeds E dir w c [] (A_stream _ d) w' ->
  (c_code c = READ_WF -> settles (mkCfg (serve E dir w) (blurt c [] 2) [] []) (mkCfg (Ret (w', false)) (Ret [A_resp _ (mkResp (Some R_OK) None [] (Some true)); A_stream num d]) [] [])) /\
  (c_code c = READ_OP -> settles (mkCfg (serve E dir w) (blurt c [] 1) [] []) (mkCfg (Ret (w', false)) (Ret [A_stream num d]) [] [])).
Proof. exact streamed. Qed.
Print Assumptions C66_streams_code.
(** A message that is no command ends the program, data in its place are lost. *)
Theorem C66_no_command_code : forall op wf data num rest (E : env op wf data num rest) dir w,
  settles (mkCfg (serve E dir w) (Snd (MJunk data num) (Ret tt)) [] []) (mkCfg Raise (Ret tt) [] []) /\
  forall d, settles (mkCfg (serve E dir w) (Snd (MData num d) (Ret tt)) [] []) (mkCfg Lost (Ret tt) [] []).
Proof. exact no_command. Qed.
Print Assumptions C66_no_command_code.

(** Global parameters set by one command are returned by the next. *)
Theorem C66_set_get : forall op wf data num rest (E : env op wf data num rest) dir gp r s pm,
  lines_fit s -> parses_to s None (Ok pm) -> consistent pm -> consistent (add_c gp pm) ->
  (forall k v, get_value (add_c gp pm) k = Some v -> good_key k /\ good_value v /\ (N.of_nat (length k + 3 + length v) < 2048)%N) ->
  exists text back,
    settles (mkCfg (interactive E 3 dir (mkW gp r)) (session [(with_s1 _ SET_GLOBAL_PARAMS s, []); (plain _ GET_GLOBAL_PARAMS, [])]) [] [])
      (mkCfg (Ret (mkW (add_c gp pm) r, true)) (Ret [answer_ok _ _; A_resp _ (mkResp None (Some text) [] None)]) [] []) /\
    (forall x, parses_to text None x <-> x = Ok back) /\
    (forall k, get_value back k = match get_value pm k with Some v => Some v | None => get_value gp k end).
Proof.
  intros op wf data num rest E dir gp r s pm Hl Hp Hc Hc' Hg.
  destruct (untyped_roundtrip _ Hc' Hg) as (back & Hb1 & Hb2).
  exists (write_c false (add_c gp pm)), back. split; [|split; [exact Hb1|]].
  - apply session_runs; [|cbn; lia]. eapply all_cons; [eapply (@s_set _ _ _ _ _ _ _ (mkW gp r) (with_s1 _ SET_GLOBAL_PARAMS s)); try eassumption; reflexivity|].
    eapply all_cons; [apply (@s_get _ _ _ _ _ _ _ (mkW (add_c gp pm) r) (plain _ GET_GLOBAL_PARAMS)); reflexivity|]. apply all_nil.
  - intros k. rewrite Hb2. apply (merge_spec gp pm Hc).
Qed.
Print Assumptions C66_set_get.

(** All responses have the fields that IACmds.proto requires, except those to three commands, whose results never have
    them: the generated readers of other languages reject such a message, matlab/pblib_generic_parse_from_string.m warns. *)
Theorem C66_required_partial : forall op wf data num rest (E : env op wf data num rest) dir c w m,
  ~ In (c_code c) [GET_GLOBAL_PARAMS; GET_EXPEC; GET_MATEL] -> sends (dispatch E dir c w) (MResp _ m) -> well_formed m.
Proof. exact required. Qed.
Print Assumptions C66_required_partial.
Theorem C66_required_refuted : forall op wf data num rest (E : env op wf data num rest) dir c w,
  c_code c = GET_GLOBAL_PARAMS -> exists m, sends (dispatch E dir c w) (MResp _ m) /\ ~ well_formed m.
Proof. intros op wf data num rest E dir c w Hc. unfold dispatch. rewrite Hc. eexists. split; [apply sends_now|]. intros [H _]. apply H; reflexivity. Qed.
Print Assumptions C66_required_refuted.

(** A failing LOAD_OP sends the error and then OK; the next command gets that OK as its answer. *)
Theorem C66_load_op_code : forall op wf data num rest (E : env op wf data num rest) dir w c m w',
  c_code c = LOAD_OP -> c_xml c <> None -> misses E c w m w' ->
  settles (mkCfg (serve E dir w) (talk c []) [] []) (mkCfg (Ret (w', false)) (Ret (answer_err data num m)) [] [MResp _ (ok_resp false)]).
Proof. exact load_op_failed. Qed.
Print Assumptions C66_load_op_code.
Theorem C66_stale_code : forall op wf data num rest (E : env op wf data num rest) dir w c r,
  is_error r = true \/ r_follows r <> Some true ->
  exists k n, steps n (mkCfg (serve E dir w) (talk c []) [] [MResp _ r]) (mkCfg k (Ret (A_resp data r)) [] []).
Proof. exact stale_answer. Qed.
Print Assumptions C66_stale_code.

(** SET_GLOBAL_PARAMS without parameters: the same.  With a malformed type tag the server ends without an answer, with a
    line of 2048 or more characters it hangs. *)
Theorem C66_set_code : forall op wf data num rest (E : env op wf data num rest) dir w c, c_code c = SET_GLOBAL_PARAMS ->
  (c_s1 c = None -> settles (mkCfg (serve E dir w) (talk c []) [] [])
      (mkCfg (Ret (w, false)) (Ret (answer_err data num (lit "SET_GLOBAL_PARAMS is missing key/values"))) [] [MResp _ (ok_resp false)])) /\
  (forall s, c_s1 c = Some s -> parses_to s None Throw -> lines_fit s ->
     exists k, settles (mkCfg (serve E dir w) (talk c []) [] []) (mkCfg Raise (Rcv k) [] [])) /\
  (forall s, c_s1 c = Some s -> ~ parse_terminates s ->
     exists k, settles (mkCfg (serve E dir w) (talk c []) [] []) (mkCfg Hang (Rcv k) [] [])).
Proof.
  intros op wf data num rest E dir w c Hc. split; [intros; apply set_missing; assumption|].
  split; intros s; [apply set_silent; assumption|apply set_hangs; assumption].
Qed.
Print Assumptions C66_set_code.

(** An operator that is not found: the client stops at the error while the server waits for a wave function ... *)
Theorem C66_operator_missing_code : forall op wf data num rest (E : env op wf data num rest) dir w c d m w', misses E c w m w' ->
  (c_code c = GET_EXPEC ->
     exists k, settles (mkCfg (serve E dir w) (talk c [d]) [] []) (mkCfg (Rcv k) (Ret (answer_err data num m)) [] [MResp _ (ok_resp false)])) /\
  (c_code c = APPLY_OP -> c_d1 c = None ->
     exists k, settles (mkCfg (serve E dir w) (talk c [d]) [] []) (mkCfg (Rcv k) (Ret (answer_err data num m)) [] [MResp _ (ok_resp true)])).
Proof. intros op wf data num rest E dir w c d m w' H. split; intros; [eapply expec_missing|eapply apply_missing]; eassumption. Qed.
Print Assumptions C66_operator_missing_code.
(** ... and when it gets one, it uses the null pointer. *)
Theorem C66_operator_null_code : forall op wf data num rest (E : env op wf data num rest) dir w c d m w',
  misses E c w m w' -> e_decode E d w' <> Bad -> c_code c = GET_EXPEC \/ c_code c = APPLY_OP ->
  exists i q, settles (mkCfg (serve E dir w) (blurt c [d] 0) [] []) (mkCfg Crash (Ret []) i q).
Proof.
  intros op wf data num rest E dir w c d m w' Hm Hd [Hc|Hc]; [|eapply apply_null; eassumption].
  destruct (@expec_null _ _ _ _ _ E dir w c d m w' Hc Hm Hd) as (q & H). eauto.
Qed.
Print Assumptions C66_operator_null_code.

(** A wave function file that can not be read is reported, but then the null pointer is used. *)
Theorem C66_read_wf_code : forall op wf data num rest (E : env op wf data num rest) dir w c n m w',
  c_code c = READ_WF -> c_s1 c = Some n -> e_load E n w = Err m w' ->
  settles (mkCfg (serve E dir w) (talk c []) [] []) (mkCfg Crash (Ret (answer_err data num m)) [] []).
Proof. exact read_wf_crash. Qed.
Print Assumptions C66_read_wf_code.

(** Commands that end the server without an answer: DELETE_OP, unknown operator classes *)
Theorem C66_silent_code : forall op wf data num rest (E : env op wf data num rest) dir w c,
  (forall ds, c_code c = DELETE_OP -> exists k, settles (mkCfg (serve E dir w) (talk c ds) [] []) (mkCfg Raise (Rcv k) [] [])) /\
  (forall n m e w', c_code c = READ_OP -> c_s1 c = Some n -> c_s2 c = Some m -> e_module E m w = Err e w' ->
     exists k, settles (mkCfg (serve E dir w) (talk c []) [] []) (mkCfg Raise (Rcv k) [] [])) /\
  (forall d n m, c_code c = WRITE_OP -> c_s1 c = Some n -> c_s2 c = Some m -> m <> lit "Laser" ->
     (forall nm, exists e w', e_module E nm w = Err e w') ->
     exists k, settles (mkCfg (serve E dir w) (talk c [d]) [] []) (mkCfg Raise (Rcv k) [] [])).
Proof.
  intros op wf data num rest E dir w c. split; [|split]; intros; [apply delete_silent|eapply read_op_silent|eapply write_op_silent]; eassumption.
Qed.
Print Assumptions C66_silent_code.

(** GET_MATEL, unlike the other commands with data, is not confirmed before the data: a client that waits blocks for ever,
    one that does not wait gets the result. *)
Theorem C66_matel_code : forall op wf data num rest (E : env op wf data num rest) dir w c d d' o w1,
  c_code c = GET_MATEL -> finds E c w o w1 ->
  (exists k k', settles (mkCfg (serve E dir w) (talk c [d; d']) [] []) (mkCfg (Rcv k) (Rcv k') [] [])) /\
  (forall f w2 g w3 w4 w5 a b w',
     e_decode E d w1 = Good f w2 -> e_decode E d' w2 = Good g w3 -> accepts E o f w3 w4 -> e_valid E o (Some g) w4 = Good true w5 ->
     e_matel E o (Some f) (Some g) w5 = Good (a, b) w' ->
     settles (mkCfg (serve E dir w) (blurt c [d; d'] 1) [] [])
       (mkCfg (Ret (w', false)) (Ret [A_resp _ (mkResp (Some R_OK) None [a; b] None)]) [] [])).
Proof.
  intros op wf data num rest E dir w c d d' o w1 Hc Hf. split; [eapply matel_deadlock; eassumption|].
  intros. eapply matel_blurt; eassumption.
Qed.
Print Assumptions C66_matel_code.

(** The client scripts: four of them work, ... *)
Theorem C66_scripts_partial : forall op wf data num rest (E : env op wf data num rest) dir w w',
  (forall x, e_run E x dir w = Good tt w' -> settles (mkCfg (serve E dir w) (qd_cmd_xml data num x) [] []) (mkCfg (Ret (w', false)) (Ret tt) [] [])) /\
  (forall x m, e_run E x dir w = Err m w' -> settles (mkCfg (serve E dir w) (qd_cmd_xml data num x) [] []) (mkCfg Raise Raise [] [])) /\
  (forall x o, e_chain E x w = Good (Some o) w' -> settles (mkCfg (serve E dir w) (qd_cmd_load_op data num x) [] []) (mkCfg (Ret (w', false)) (Ret tt) [] [])) /\
  (e_clear E w = Good tt w' -> settles (mkCfg (serve E dir w) (qd_cmd_clear_objects data num) [] []) (mkCfg (Ret (w', false)) (Ret tt) [] [])) /\
  (forall x d o w1 f w2 w3 v, (if is_xml x then e_chain E x w else e_ref E x w) = Good (Some o) w1 ->
     e_decode E d w1 = Good f w2 -> accepts E o f w2 w3 -> e_expec E o (Some f) w3 = Good v w' ->
     settles (mkCfg (serve E dir w) (qd_cmd_expec num x d) [] []) (mkCfg (Ret (w', false)) (Ret [v]) [] [])).
Proof.
  intros op wf data num rest E dir w w'. split; [intros; apply m_xml_ok; assumption|]. split; [intros x m He; eapply m_xml_err; exact He|].
  split; [intros x o He; eapply m_load_ok; exact He|]. split; [apply m_clear_ok|]. intros x d o w1 f w2 w3 v. apply m_expec_ok.
Qed.
Print Assumptions C66_scripts_partial.
(** ... the others never do: qd_get_global_params and qd_cmd_quit wait for an answer that is not sent,
    qd_set_global_params does not send the parameters, qd_cmd_matel blocks, qd_cmd_apply_op stops with an error while the
    server waits for its data. *)
Theorem C66_scripts_code : forall op wf data num rest (E : env op wf data num rest) dir w,
  (exists k, settles (mkCfg (serve E dir w) (qd_get_global_params data num) [] []) (mkCfg (Ret (w, false)) (Rcv k) [] [])) /\
  (exists k, settles (mkCfg (serve E dir w) (qd_cmd_quit data num) [] []) (mkCfg (Ret (w, true)) (Rcv k) [] [])) /\
  (forall kv, settles (mkCfg (serve E dir w) (qd_set_global_params data num kv) [] []) (mkCfg (Ret (w, false)) Raise [] [MResp _ (ok_resp false)])) /\
  (forall x d d' o w', is_xml x = true -> e_chain E x w = Good (Some o) w' ->
     exists k k', settles (mkCfg (serve E dir w) (qd_cmd_matel num x d d') [] []) (mkCfg (Rcv k) (Rcv k') [] [])) /\
  (forall x d d', is_xml x = false -> exists k, settles (mkCfg (serve E dir w) (qd_cmd_matel num x d d') [] []) (mkCfg (Rcv k) Raise [] [])) /\
  (forall x d, (is_xml x = true -> e_chain E x w <> Bad) ->
     exists k q, settles (mkCfg (serve E dir w) (qd_cmd_apply_op num x d) [] []) (mkCfg (Rcv k) Raise [] q)).
Proof.
  intros op wf data num rest E dir w. split; [apply m_get|]. split; [apply m_quit|]. split; [apply m_set|].
  split; [intros x d d' o w'; apply m_matel_xml|]. split; [apply m_matel_ref|apply m_apply].
Qed.
Print Assumptions C66_scripts_code.

(** Frames are read back; an input that ends inside a frame (or before the first one) leads to the use of memory that was
    never written. *)
Theorem C66_frame : forall C (dec : list byte -> option C) body c rest, (Z.of_nat (length body) < 2 ^ 32)%Z -> dec body = Some c ->
  read_frame dec (write_frame body ++ rest) = Ok (c, rest).
Proof. exact frame_roundtrip. Qed.
Print Assumptions C66_frame.
Theorem C66_frame_end_refuted : forall C (dec : list byte -> option C) body k, (Z.of_nat (length body) < 2 ^ 32)%Z -> k < 4 + length body ->
  read_frame dec (firstn k (write_frame body)) = UB.
Proof. exact frame_truncated. Qed.
Print Assumptions C66_frame_end_refuted.

(** ** A concrete server: operators are numbers that multiply, wave functions are numbers, one operator is stored *)
Definition ex_W := world nat.
Definition ex_env : env Z Z Z Z nat := {|
  e_run := fun x _ w => if str_eqb x (lit "<propa/>") then Good tt (mkW (w_gp w) (S (w_rest w))) else Err (lit "Programm type not known ") w;
  e_chain := fun x w => if str_eqb x (lit "<op/>") then Good (Some 3%Z) w else Err (lit "XML error") w;
  e_ref := fun s w => if str_eqb s (lit "H") then Good (Some 2%Z) w else Good None w;
  e_prop := fun x w => Err (lit "XML error") w;
  e_module := fun s w => Err (lit "Module not found") w;
  e_ser := fun _ => true;
  e_laser := fun w => Good 0%Z w;
  e_load := fun n w => if str_eqb n (lit "psi") then Good 5%Z w else Err (lit "can not open") w;
  e_store := fun n z f w => Good tt w;
  e_encode := fun f w => Good (f + 1000)%Z w;
  e_decode := fun d w => if (d <? 1000)%Z then Err (lit "no header") w else Good (d - 1000)%Z w;
  e_opread := fun n o w => Good tt w;
  e_opsend := fun o w => Good o w;
  e_opget := fun d o w => Good tt w;
  e_opstore := fun n z o w => Good tt w;
  e_clear := fun w => Good tt (mkW (w_gp w) 0);
  e_clock := fun o w => Some 10%Z;
  e_settime := fun o t w => w;
  e_setclock := fun o n t w => Good tt w;
  e_int := fun n => Some n;
  e_zero := 0%Z;
  e_valid := fun o f w => Good (match f with Some _ => true | None => false end) w;
  e_init := fun o f w => Err (lit "no wf") w;
  e_apply := fun o f w => Good (option_map (Z.mul o) f) w;
  e_expec := fun o f w => match f with Some f => Good (f * o * f)%Z w | None => Bad end;
  e_matel := fun o f g w => match f, g with Some f, Some g => Good ((f * o * g)%Z, 0%Z) w | _, _ => Bad end |}.
Definition ex_w : ex_W := mkW empty_c 7.
Definition ex_s1 (cd : code) (s : string) : command Z := with_s1 Z cd (lit s).

Theorem C66_refuted : ~ C66_full.
Proof.
  intros H. destruct (H Z Z Z Z nat ex_env [] ex_w (with_xml Z LOAD_OP (lit "<opp/>")) []) as (f & Hs & Ha); [discriminate|reflexivity|].
  assert (Hm : misses ex_env (with_xml Z LOAD_OP (lit "<opp/>")) ex_w (lit "XML error") ex_w) by (eapply m_xml; reflexivity).
  pose proof (@load_op_failed _ _ _ _ _ ex_env [] ex_w (with_xml Z LOAD_OP (lit "<opp/>")) _ _ eq_refl ltac:(discriminate) Hm) as Hf.
  rewrite (settles_unique Hs Hf) in Ha. destruct Ha as (_ & _ & A & _). discriminate A.
Qed.
Print Assumptions C66_refuted.

(** A session: store a wave function, an expectation value, apply an operator, run a program, set and get parameters *)
Definition ex_session : list (command Z * list Z) :=
  [(ex_s1 WRITE_WF "psi", [1004]%Z); (ex_s1 GET_EXPEC "H", [1004]%Z); (with_xml Z APPLY_OP (lit "<op/>"), [1004]%Z);
   (with_xml Z RUN_PROG (lit "<propa/>"), []); (ex_s1 READ_WF "psi", []);
   (ex_s1 SET_GLOBAL_PARAMS "dir = out", []); (plain Z GET_GLOBAL_PARAMS, [])].
Lemma short_line s : ~ In "010"%char s -> (N.of_nat (length s) < 2048)%N -> lines_fit s.
Proof. intros Hn Hl a l b -> _. rewrite !app_length in Hl. lia. Qed.
Example C66_session_ex : exists w, all_succeed ex_env [] ex_w ex_session
  [answer_ok _ _; A_resp _ (mkResp (Some R_OK) None [32]%Z None); A_stream _ 1012%Z; answer_ok _ _; A_stream _ 1005%Z; answer_ok _ _;
   A_resp _ (mkResp None (Some (lit "dir = out" ++ [nl])) [] None)] w /\ w_rest w = 8.
Proof.
  eexists. split.
  - eapply all_cons; [eapply s_write_wf; reflexivity|].
    eapply all_cons; [eapply s_expec; [reflexivity|eapply f_ref; reflexivity|reflexivity|eapply a_valid; reflexivity|reflexivity]|].
    eapply all_cons; [eapply s_apply; [reflexivity|reflexivity|eapply f_xml; reflexivity|reflexivity|eapply a_valid; reflexivity|reflexivity|reflexivity]|].
    eapply all_cons; [eapply s_run; reflexivity|].
    eapply all_cons; [eapply s_read_wf; reflexivity|].
    eapply all_cons; [eapply s_set; [reflexivity|reflexivity|apply short_line; [cbn; intuition discriminate|reflexivity]|]|].
    { exists 4. eexists. split; [vm_compute; reflexivity|]. cbn. reflexivity. }
    eapply all_cons; [apply s_get; reflexivity|apply all_nil].
  - reflexivity.
Qed.
Example C66_failure_ex : fails ex_env [] ex_w (ex_s1 WRITE_WF "psi") [4%Z] (lit "no header") (Some ex_w) /\
  fails ex_env [] ex_w (with_xml Z RUN_PROG (lit "<nothing/>")) [] (lit "Programm type not known ") None.
Proof. split; [eapply x_write_wf_data; reflexivity|eapply x_run; reflexivity]. Qed.
Example C66_misses_ex : misses ex_env (ex_s1 GET_EXPEC "K") ex_w (lit "Operator load from command by reference failed") ex_w /\
  e_decode ex_env 1004%Z ex_w <> Bad /\ e_load ex_env (lit "phi") ex_w = Err (lit "can not open") ex_w /\
  finds ex_env (ex_s1 GET_MATEL "H") ex_w 2%Z ex_w.
Proof. split; [eapply m_unknown; reflexivity|]. split; [discriminate|]. split; [reflexivity|eapply f_ref; reflexivity]. Qed.
Example C66_set_ex : parses_to (lit "k[num] = 1") None Throw /\ ~ parse_terminates (repeat "x"%char (N.to_nat 2048)).
Proof.
  split; [exists 4, Throw; split; [vm_compute; reflexivity|exact Logic.I]|].
  intros H. assert (B : ~ In "["%char (repeat "x"%char (N.to_nat 2048))) by (intros X; apply repeat_spec in X; discriminate).
  apply (terminates_iff _ B) in H. specialize (H [] (repeat "x"%char (N.to_nat 2048)) []).
  rewrite app_nil_r in H. specialize (H eq_refl). rewrite repeat_length in H.
  assert (N.of_nat (N.to_nat 2048) < 2048)%N; [apply H; intros X; apply repeat_spec in X; discriminate|lia].
Qed.
Example C66_frame_ex : read_frame (fun b => Some b) (write_frame [10; 2]%Z ++ [7]%Z) = Ok ([10; 2]%Z, [7]%Z) /\
  write_frame [10; 2]%Z = [2; 0; 0; 0; 10; 2]%Z.
Proof. vm_compute. auto. Qed.
