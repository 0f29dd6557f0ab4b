(** Model of the interactive mode: src/CmdHandler.cpp (server), src/IACmds.proto (messages) and the scripts
    src/matlab/qd_*.m (client).

    A program that talks over two FIFOs is a [prog]: it sends and receives messages one after the other.  A message is a
    whole command, a whole response or a whole data stream (wave function or operator); the four byte length in front of
    commands and responses is modelled at the end.  Everything the server does besides talking (running an XML program,
    loading and using operators, reading and writing files) is an oracle on the rest of the server's state, which
    succeeds, throws an exception with a message, or is undefined.  Sending a data stream is all or nothing; writing to
    the FIFO does not fail. *)
From Coq Require Import Ascii String List NArith ZArith Lia Bool Arith.
From Verif Require Import Base Model.Params Model.Serial.
Import ListNotations.
Set Implicit Arguments.

Section Prog.
  Variables (I O : Type).
  Inductive prog (A : Type) : Type :=
  | Ret (a : A)                          (* done *)
  | Snd (o : O) (k : prog A)             (* send *)
  | Rcv (k : I -> prog A)                (* wait for a message *)
  | Raise                                (* an exception leaves the program *)
  | Crash                                (* undefined behaviour *)
  | Lost                                 (* a message of the wrong kind is read: the two sides are out of step *)
  | Hang.                                (* endless loop *)
  Arguments Raise {A}. Arguments Crash {A}. Arguments Lost {A}. Arguments Hang {A}.
  Fixpoint after {A B} (p : prog A) (f : A -> prog B) : prog B :=
    match p with
    | Ret a => f a
    | Snd o k => Snd o (after k f)
    | Rcv k => Rcv (fun i => after (k i) f)
    | Raise => Raise | Crash => Crash | Lost => Lost | Hang => Hang
    end.
End Prog.
Arguments Raise {I O A}. Arguments Crash {I O A}. Arguments Lost {I O A}. Arguments Hang {I O A}.
Arguments Ret {I O A} a. Arguments Snd {I O A} o k. Arguments Rcv {I O A} k.

Section Server.
  Variables (op wf data num rest : Type).

  (** IACmds.proto:17-34 *)
  Inductive code := QUIT | GET_GLOBAL_PARAMS | SET_GLOBAL_PARAMS | CLEAR_OBJECTS | RUN_PROG | READ_WF | WRITE_WF
    | READ_OP | WRITE_OP | LOAD_OP | LOAD_U | DELETE_OP | GET_EXPEC | GET_MATEL | APPLY_OP.
  (** IACmds.proto:6-15 *)
  Record command := mkCmd { c_code : code; c_xml : option str; c_s1 : option str; c_s2 : option str; c_s3 : option str;
                            c_d1 : option num; c_d2 : option num }.
  (** IACmds.proto:43-47 *)
  Inductive rcode := R_OK | R_ERROR_MSG | R_ERROR.
  (** IACmds.proto:37-41; [None]: field not set *)
  Record response := mkResp { r_code : option rcode; r_msg : option str; r_result : list num; r_follows : option bool }.

  Inductive c2s := MCmd (c : command) | MData (d : data) | MJunk.   (* MJunk: a frame that is no command *)
  Inductive s2c := MResp (r : response) | MStream (d : data).

  (** global parameters and everything else (operators, clocks, files) *)
  Record world := mkW { w_gp : container; w_rest : rest }.
  Inductive res (A : Type) := Good (a : A) (w : world) | Err (m : str) (w : world) | Bad.
  Arguments Good {A}. Arguments Err {A}. Arguments Bad {A}.

  Record env := mkEnv {
    e_run : str -> str -> world -> res unit;              (* RunXML(xml, dir) *)
    e_chain : str -> world -> res (option op);            (* XmlParser::Parse and ChainLoader::LoadOperatorChain *)
    e_ref : str -> world -> res (option op);              (* GlobalOpList::operator[] *)
    e_prop : str -> world -> res (option op);             (* XmlParser::Parse and ChainLoader::LoadPropagator *)
    e_module : str -> world -> res (option op);           (* ModuleLoader<Operator>::Load *)
    e_ser : op -> bool;                                   (* dynamic_cast<Serializiable*> succeeds *)
    e_laser : world -> res op;                            (* new Laser() *)
    e_load : str -> world -> res wf;                      (* FileWF::LoadWaveFunctionByMeta from a file *)
    e_store : str -> bool -> wf -> world -> res unit;     (* FileWF::WriteWaveFunction to a file *)
    e_encode : wf -> world -> res data;                   (* FileWF::WriteWaveFunction to the FIFO *)
    e_decode : data -> world -> res wf;                   (* FileWF::LoadWaveFunctionByMeta from the FIFO *)
    e_opread : str -> op -> world -> res unit;            (* FileSingle::ReadSingleFileFromStream from a file *)
    e_opsend : op -> world -> res data;                   (* FileSingle::WriteSingleFileToStream to the FIFO *)
    e_opget : data -> op -> world -> res unit;            (* FileSingle::ReadSingleFileFromStream from the FIFO *)
    e_opstore : str -> bool -> op -> world -> res unit;   (* FileSingle::WriteSingleFileToStream to a file *)
    e_clear : world -> res unit;                          (* GlobalOpList::Clear and the collected clocks *)
    e_clock : op -> world -> option Z;                    (* Operator::Clock: NULL or its number of steps *)
    e_settime : op -> Z -> world -> world;                (* QDClock::TimeStep *)
    e_setclock : op -> Z -> num -> world -> res unit;     (* new QDClock, Collector::Register, OPropagator::Clock *)
    e_int : num -> option Z;                              (* double to int; None: out of range, undefined *)
    e_zero : num;
    e_valid : op -> option wf -> world -> res bool;       (* Operator::Valid; None: NULL *)
    e_init : op -> option wf -> world -> res unit;        (* Operator::Init *)
    e_apply : op -> option wf -> world -> res (option wf); (* Operator::Apply *)
    e_expec : op -> option wf -> world -> res num;        (* Operator::Expec *)
    e_matel : op -> option wf -> option wf -> world -> res (num * num) (* Operator::MatrixElement *)
  }.
  Variable E : env.

  Definition server := prog c2s s2c world.

  (** CmdHandler.cpp:55-70 *)
  Definition ok_resp (follows : bool) : response := mkResp (Some R_OK) None [] (Some follows).
  Definition err_resp (m : str) : response := mkResp (Some R_ERROR_MSG) (Some m) [] (Some false).
  Definition ok (follows : bool) (k : server) : server := Snd (MResp (ok_resp follows)) k.
  Definition err (m : str) (k : server) : server := Snd (MResp (err_resp m)) k.

  (** a call inside try with a handler, and one without *)
  Definition try {A} (x : res A) (k : A -> world -> server) (h : str -> world -> server) : server :=
    match x with Good a w => k a w | Err m w => h m w | Bad => Crash end.
  Definition call {A} (x : res A) (k : A -> world -> server) : server := try x k (fun _ _ => Raise).
  (** catch (Exception& e) { send_error_message(e.GetMessage()); throw (e); } *)
  Definition report {A} (x : res A) (k : A -> world -> server) : server := try x k (fun m _ => err m Raise).

  (** CmdHandler.cpp:281-314 *)
  Definition get_operator (c : command) (w : world) (k : option op -> world -> server) : server :=
    let failed := fun m w => err m (k None w) in
    match c_xml c, c_s1 c with
    | Some x, _ => try (e_chain E x w) (fun o w => match o with Some _ => k o w | None => failed (lit "Operator load from command failed") w end) failed
    | None, Some s => try (e_ref E s w) (fun o w => match o with Some _ => k o w | None => failed (lit "Operator load from command by reference failed") w end) failed
    | None, None => failed (lit "Can't load operator, neither XML nor reference is given.") w
    end.

  (** CmdHandler.cpp:321-332, reading from the FIFO *)
  Definition get_wf (w : world) (k : option wf -> world -> server) : server :=
    Rcv (fun m => match m with
                  | MData d => try (e_decode E d w) (fun f w => k (Some f) w) (fun m w => err m (k None w))
                  | _ => Lost
                  end).

  (** CmdHandler.cpp:339-348; writing NULL dereferences it *)
  Definition put_wf (f : option wf) (w : world) (k : world -> server) : server :=
    match f with
    | None => Crash
    | Some f => report (e_encode E f w) (fun d w => Snd (MStream d) (k w))
    end.

  (** CmdHandler.cpp:350-365 *)
  Definition cmd_run_prog (c : command) (dir : str) (w : world) : server :=
    match c_xml c with
    | None => err (lit "RUN_PROG is missing the XML input") (Ret w)
    | Some x => report (e_run E x dir w) (fun _ w => ok false (Ret w))
    end.

  (** CmdHandler.cpp:367-397 *)
  Definition cmd_read_wf (c : command) (w : world) : server :=
    match c_s1 c with
    | None => err (lit "READ_WF is missing a file name") (Ret w)
    | Some n => ok true (
        let k := fun f w => put_wf f w (fun w => Ret w) in
        try (e_load E n w) (fun f w => k (Some f) w) (fun m w => err m (k None w)))
    end.

  (** CmdHandler.cpp:400-435 *)
  Definition cmd_write_wf (c : command) (w : world) : server :=
    match c_s1 c with
    | None => err (lit "WRITE_WF is missing a file name") (Ret w)
    | Some n => ok false (get_wf w (fun f w =>
        match f with
        | None => Ret w
        | Some f => report (e_store E n (match c_s2 c with Some z => str_eqb z (lit "gzip") | None => false end) f w)
                      (fun _ w => ok false (Ret w))
        end))
    end.

  (** CmdHandler.cpp:437-488 *)
  Definition cmd_read_op (c : command) (w : world) : server :=
    match c_s1 c, c_s2 c with
    | None, _ => err (lit "READ_OP is missing a file name") (Ret w)
    | Some _, None => err (lit "READ_OP is missing a class name") (Ret w)
    | Some n, Some m =>
      call (e_module E m w) (fun o w =>
        match o with
        | None => Raise
        | Some o =>
          if e_ser E o then
            report (e_opread E n o w) (fun _ w =>
              report (e_opsend E o w) (fun d w => Snd (MStream d) (Ret w)))
          else Raise
        end)
    end.

  (** CmdHandler.cpp:490-565 *)
  Definition cmd_write_op (c : command) (w : world) : server :=
    match c_s1 c, c_s2 c with
    | None, _ => err (lit "WRITE_OP is missing a file name") (Ret w)
    | Some _, None => err (lit "WRITE_OP is missing a class name") (Ret w)
    | Some n, Some m =>
      let go := fun o w =>
        ok false (Rcv (fun i =>
          match i with
          | MData d => report (e_opget E d o w) (fun _ w =>
              report (e_opstore E (n ++ lit ".op") (match c_s3 c with Some z => str_eqb z (lit "gzip") | None => false end) o w)
                (fun _ w => ok false (Ret w)))
          | _ => Lost
          end)) in
      if str_eqb m (lit "Laser") then call (e_laser E w) go
      else match m with
           | [] => Raise
           | ch :: t =>
             call (e_module E (if Ascii.eqb ch "O"%char then t else m) w) (fun o w =>
               match o with
               | None => Raise
               | Some o => if e_ser E o then go o w else Raise
               end)
           end
    end.

  (** CmdHandler.cpp:567-585; a long line hangs (property C04) *)
  Definition cmd_set_global_params (c : command) (w : world) : server :=
    let s := match c_s1 c with Some s => s | None => [] end in
    let k := match parse (S (S (length s))) empty_c None (stream_of s) with
             | None => Hang
             | Some (Ok (pm, _)) => ok false (Ret (mkW (add_c (w_gp w) pm) (w_rest w)))
             | Some Throw => Raise
             | Some UB => Crash
             end in
    match c_s1 c with Some _ => k | None => err (lit "SET_GLOBAL_PARAMS is missing key/values") k end.

  (** CmdHandler.cpp:587-598 *)
  Definition cmd_get_global_params (w : world) : server :=
    Snd (MResp (mkResp None (Some (write_c false (w_gp w))) [] None)) (Ret w).

  (** CmdHandler.cpp:603-608 *)
  Definition cmd_clear_objects (w : world) : server := call (e_clear E w) (fun _ w => ok false (Ret w)).

  (** CmdHandler.cpp:610-618 *)
  Definition cmd_load_op (c : command) (w : world) : server :=
    let k := get_operator c w (fun _ w => ok false (Ret w)) in
    match c_xml c with Some _ => k | None => err (lit "LOAD_OP is missing a XML operator definition") k end.

  (** CmdHandler.cpp:620-654 *)
  Definition cmd_load_U (c : command) (w : world) : server :=
    let missing := fun {A} (x : option A) m (k : server) => match x with Some _ => k | None => err m k end in
    missing (c_xml c) (lit "LOAD_U is missing a XML operator definition") (
    missing (c_d1 c) (lit "LOAD_U is missing a time step") (
    missing (c_d2 c) (lit "LOAD_U is missing  Nt") (
      report (e_prop E (match c_xml c with Some x => x | None => [] end) w) (fun u w =>
        match u with
        | None => err (lit "Propagator load from command failed") Raise
        | Some u =>
          match e_int E (match c_d2 c with Some n => n | None => e_zero E end) with
          | None => Crash
          | Some n => report (e_setclock E u n (match c_d1 c with Some t => t | None => e_zero E end) w) (fun _ w =>
                        ok false (Ret w))
          end
        end)))).

  (** CmdHandler.cpp:656-706 *)
  Definition cmd_apply_op (c : command) (w : world) : server :=
    get_operator c w (fun o w =>
      let go := fun w =>
        ok true (get_wf w (fun f w =>
          match o with
          | None => Crash
          | Some o =>
            report (e_valid E o f w) (fun v w =>
              let second := fun w => report (e_valid E o f w) (fun v w =>
                if v then report (e_apply E o f w) (fun f w => put_wf f w (fun w => Ret w))
                else err (lit "Operator initialized with incompatible wfs") (Ret w)) in
              if v then second w else report (e_init E o f w) (fun _ w => second w))
          end)) in
      match c_d1 c with
      | None => go w
      | Some d =>
        match o with
        | None => Crash
        | Some o =>
          match e_clock E o w with
          | None => err (lit "Operator has no clock") (Ret w)
          | Some steps =>
            match e_int E d with
            | None => Crash
            | Some t => if ((t <? 0) || (t >? steps))%Z then err (lit "Invalid time value chosen") (Ret w)
                        else go (e_settime E o t w)
            end
          end
        end
      end).

  (** CmdHandler.cpp:708-743 *)
  Definition cmd_get_matel (c : command) (w : world) : server :=
    get_operator c w (fun o w => get_wf w (fun bra w => get_wf w (fun ket w =>
      match o with
      | None => Crash
      | Some o =>
        report (e_valid E o bra w) (fun v w =>
          let bad := fun w => err (lit "Operator initialized with incompatible wfs") (Ret w) in
          let second := fun w =>
            report (e_valid E o bra w) (fun v w =>
              if v then report (e_valid E o ket w) (fun v w =>
                if v then call (e_matel E o bra ket w) (fun r w =>
                  Snd (MResp (mkResp (Some R_OK) None [fst r; snd r] None)) (Ret w))
                else bad w)
              else bad w) in
          if v then second w else report (e_init E o bra w) (fun _ w => second w))
      end))).

  (** CmdHandler.cpp:745-774 *)
  Definition cmd_get_expec (c : command) (w : world) : server :=
    get_operator c w (fun o w => ok false (get_wf w (fun bk w =>
      match o with
      | None => Crash
      | Some o =>
        let result := fun w => call (e_expec E o bk w) (fun r w =>
          Snd (MResp (mkResp (Some R_OK) None [r] None)) (Ret w)) in
        let handler := fun m w => err m (result w) in
        let second := fun w => try (e_valid E o bk w) (fun v w =>
          if v then result w else err (lit "Operator initialized with incompatible wfs") (Ret w)) handler in
        try (e_valid E o bk w) (fun v w =>
          if v then second w else try (e_init E o bk w) (fun _ w => second w) handler) handler
      end))).

  (** CmdHandler.cpp:808-855; QUIT ends the loop *)
  Definition dispatch (dir : str) (c : command) (w : world) : server :=
    match c_code c with
    | QUIT => Ret w
    | RUN_PROG => cmd_run_prog c dir w
    | READ_WF => cmd_read_wf c w
    | WRITE_WF => cmd_write_wf c w
    | GET_GLOBAL_PARAMS => cmd_get_global_params w
    | SET_GLOBAL_PARAMS => cmd_set_global_params c w
    | CLEAR_OBJECTS => cmd_clear_objects w
    | LOAD_OP => cmd_load_op c w
    | LOAD_U => cmd_load_U c w
    | READ_OP => cmd_read_op c w
    | WRITE_OP => cmd_write_op c w
    | GET_EXPEC => cmd_get_expec c w
    | GET_MATEL => cmd_get_matel c w
    | APPLY_OP => cmd_apply_op c w
    | DELETE_OP => Raise
    end.

  (** CmdHandler.cpp:790-858: one command; the second component tells whether it was QUIT *)
  Definition serve (dir : str) (w : world) : prog c2s s2c (world * bool) :=
    Rcv (fun m =>
      match m with
      | MJunk => Raise
      | MData _ => Lost
      | MCmd c => after (dispatch dir c w) (fun w => Ret (w, match c_code c with QUIT => true | _ => false end))
      end).
  (** CmdHandler.cpp:780-861, at most [n] commands *)
  Fixpoint interactive (n : nat) (dir : str) (w : world) : prog c2s s2c (world * bool) :=
    match n with
    | O => Ret (w, false)
    | S n => after (serve dir w) (fun r => if snd r then Ret r else interactive n dir (fst r))
    end.
End Server.
Arguments Good {rest A}. Arguments Err {rest A}. Arguments Bad {rest A}.
Arguments ok_resp {num}. Arguments err_resp {num}.

(** ** The client scripts.  An error that stops a script is [Raise]. *)
Section Client.
  Variables (data num : Type).
  Notation command := (command num). Notation response := (response num).
  Notation c2s := (c2s data num). Notation s2c := (s2c data num).
  Definition client := prog s2c c2s.

  (** matlab/qd_handle_response.m; the parser fills in the defaults for missing fields
      (matlab/pblib_generic_parse_from_string.m:57-62, 107-114) *)
  Definition handle {A} (k : response -> client A) : client A :=
    Rcv (fun m => match m with
                  | MStream _ _ => Lost
                  | MResp _ r => match r_code r with Some R_ERROR_MSG | Some R_ERROR => Raise | _ => k r end
                  end).
  (** reading a response without looking at its code, matlab/qd_get_global_params.m:16-23 *)
  Definition read_resp {A} (k : response -> client A) : client A :=
    Rcv (fun m => match m with MStream _ _ => Lost | MResp _ r => k r end).
  (** matlab/qd_write_cmd.m:15-32 *)
  Definition write_cmd {A} (c : command) (payload : option data) (k : response -> client A) : client A :=
    Snd (MCmd data c) (handle (fun r =>
      match payload with
      | None => k r
      | Some d => Snd (MData num d) (handle k)
      end)).

  Definition plain (cd : code) : command := mkCmd cd None None None None None None.
  Definition with_xml (cd : code) (x : str) : command := mkCmd cd (Some x) None None None None None.
  Definition with_s1 (cd : code) (s : str) : command := mkCmd cd None (Some s) None None None None.

  (** matlab/qd_cmd_xml.m, qd_cmd_load_op.m, qd_cmd_clear_objects.m, qd_cmd_quit.m *)
  Definition qd_cmd_xml (x : str) : client unit := write_cmd (with_xml RUN_PROG x) None (fun _ => Ret tt).
  Definition qd_cmd_load_op (x : str) : client unit := write_cmd (with_xml LOAD_OP x) None (fun _ => Ret tt).
  Definition qd_cmd_clear_objects : client unit := write_cmd (plain CLEAR_OBJECTS) None (fun _ => Ret tt).
  Definition qd_cmd_quit : client unit := write_cmd (plain QUIT) None (fun _ => Ret tt).
  (** matlab/qd_get_global_params.m *)
  Definition qd_get_global_params : client (option str) :=
    write_cmd (plain GET_GLOBAL_PARAMS) None (fun _ => read_resp (fun r => Ret (r_msg r))).
  (** matlab/qd_set_global_params.m: the field is called param_s1, so "param1" is not sent
      (matlab/pblib_generic_serialize_to_string.m:45-49) *)
  Definition qd_set_global_params (keyval : str) : client (option str) :=
    write_cmd (plain SET_GLOBAL_PARAMS) None (fun _ => read_resp (fun r => Ret (r_msg r))).
  (** matlab/qd_cmd_expec.m *)
  Definition is_xml (o : str) : bool := match o with c :: _ => Ascii.eqb c "<"%char | [] => false end.
  Definition qd_cmd_expec (o : str) (d : data) : client (list num) :=
    write_cmd (if is_xml o then with_xml GET_EXPEC o else with_s1 GET_EXPEC o) (Some d) (fun r => Ret (r_result r)).
  (** matlab/qd_cmd_matel.m: field "param1" as above; line 28 calls qd_handle_response without its argument *)
  Definition qd_cmd_matel (o : str) (bra ket : data) : client (list num) :=
    write_cmd (if is_xml o then with_xml GET_MATEL o else plain GET_MATEL) None (fun _ => Raise).
  (** matlab/qd_cmd_apply_op.m: the same *)
  Definition qd_cmd_apply_op (o : str) (d : data) : client data :=
    write_cmd (if is_xml o then with_xml APPLY_OP o else plain APPLY_OP) None (fun _ => Raise).
End Client.

(** ** Frames *)
(** CmdHandler.cpp:42-53 and matlab/qd_write_cmd.m:19-21: length and body *)
Definition write_frame (body : list byte) : list byte := (le 4 (Z.of_nat (length body) mod 2 ^ 32) ++ body)%list.
(** CmdHandler.cpp:792-799 at the end of the input: msg_size and buffer are used although nothing was read *)
Definition read_frame {C} (dec : list byte -> option C) (inp : list byte) : outcome (C * list byte) :=
  if (length inp <? 4)%nat then UB
  else
    let n := Z.to_nat (unle (firstn 4 inp)) in
    let t := skipn 4 inp in
    if (length t <? n)%nat then UB
    else match dec (firstn n t) with Some c => Ok (c, skipn n t) | None => Throw end.
